(** Model of attribute values in SQL columns: encodeFeatureValue and encodeEnumLiteral of
    ecore/sqlencoder.go, decodeAny, decodeEnumLiteral and decodeFeatureValue of ecore/sqldecoder.go.

    The SQLite side (binding of arguments, affinity of columns) follows the documentation of
    zombiezen.com/go/sqlite/sqlitex and of SQLite. *)
From Coq Require Import String.
From Verif Require Import Base Chars StrconvModel TimeModel FloatModel LiteralModel SqlSchemaModel.
Local Open Scope string_scope.
Local Open Scope list_scope.
Local Open Scope Z_scope.

(** a value of SQLite *)
Inductive sql := SNull | SInt (n : Z) | SReal (f : float) | SText (s : str) | SBlob (b : str).

(** ** arguments and columns *)
Section Sqlite.
  (** fmt.Sprint for values of other types; the conversions of SQLite between texts and numbers *)
  Context (sprint : gval -> str) (convert_sql : str -> sql -> sql).

  (** sqlitex.ExecOptions.Args: by the kind of the value; SQLite has no NaN *)
  Definition bind_float (f : float) : sql := match f with SpecFloat.S754_nan => SNull | _ => SReal f end.
  Definition bind_arg (v : gval) : sql :=
    match v with
    | VNil => SNull
    | VInt n | VInt64 n | VInt32 n | VInt16 n | VInt8 n | VByte n => SInt n
    | VUint64 n => SInt (wrap 64 n)
    | VBool b => SInt (if b then 1 else 0)
    | VString s => SText s
    | VBytes b => SBlob (match b with Some b => b | None => [] end)
    | VFloat64 f => bind_float f
    | VFloat32 f => bind_float (widen f)
    | VTime _ | VOther _ => SText (sprint v)
    end.

  (** https://www.sqlite.org/datatype3.html: NULL and blobs are never converted, a value of the type of the
      column is stored as it is, except that small whole numbers of REAL columns are stored as integers,
      so that -0.0 becomes 0.0 *)
  Definition store (type : str) (x : sql) : sql :=
    match x with
    | SNull | SBlob _ => x
    | SInt _ => if str_eqb type (lit "INTEGER") then x else convert_sql type x
    | SReal f => if str_eqb type (lit "REAL")
                 then match f with SpecFloat.S754_zero _ => SReal (SpecFloat.S754_zero false) | _ => x end
                 else convert_sql type x
    | SText _ => if str_eqb type (lit "TEXT") then x else convert_sql type x
    end.
End Sqlite.

(** ** encoding *)
Inductive result {A} := Done (a : A) | Error | Panicked.
Arguments result : clear implicits.

(** an enumeration: its package and its name *)
Notation enum := (nat * str)%type.
(** a row of the enums table (sqlschema.go:410-419): key, package, name, literal.  packageID stands for the
    package: encodePackage and decodePackage are not modelled here *)
Record enum_row := mkR { rid : Z; renum : enum; rliteral : str }.

Section Values.
  (** the metamodel: the literals of the enumerations (GetEClassifier(name).(EEnum), nil if there is none) *)
  Context (literals : enum -> option (list literal)).
  (** the data type of the attribute: CreateFromString and ConvertToString of its factory; its
      enumeration; GetDefaultValue of the attribute *)
  Context (create : str -> option gval) (convert : gval -> option str) (en : enum) (default : gval).

  (** a literal of an enumeration is known by its position.  [ids]: SQLCodecIDManager,
      GetEnumLiteralID / SetEnumLiteralID / GetEnumLiteralFromID *)
  Definition ids := list (enum * nat * Z).
  Definition same_enum (e e' : enum) : bool := Nat.eqb (fst e) (fst e') && str_eqb (snd e) (snd e').
  Definition id_of (m : ids) (e : enum) (i : nat) : option Z :=
    match find (fun '(e', i', _) => same_enum e e' && Nat.eqb i i') m with Some (_, _, n) => Some n | None => None end.
  Definition literal_of (m : ids) (n : Z) : option (enum * nat) :=
    match find (fun '(_, _, n') => n =? n') m with Some (e, i, _) => Some (e, i) | None => None end.
  (** the position GetEEnumLiteralByLiteral finds (eenum_ext.go:51-60) *)
  Fixpoint position (ls : list literal) (s : str) : option nat :=
    match ls with
    | [] => None
    | l :: ls' => if str_eqb (getLiteral l) s then Some O else option_map S (position ls' s)
    end.

  (** the enums table: rows in the order of insertion, keys given by AUTOINCREMENT *)
  Definition next_id (t : list enum_row) : Z := fold_right (fun r m => Z.max (rid r) m) 0 t + 1.

  (** sqlencoder.go:456-499, the identifier manager giving no identifier in advance *)
  Definition encodeEnumLiteral (m : ids) (t : list enum_row) (i : nat) (s : str) : gval * ids * list enum_row :=
    match id_of m en i with
    | Some n => (VInt64 n, m, t)
    | None => let n := next_id t in (VInt64 n, m ++ [(en, i, n)], t ++ [mkR n en s])
    end.

  (** sqlencoder.go:420-454, the kinds of attributes.  The value of a type other than the one of the kind is
      passed on; dates assert their type *)
  Definition encodeFeatureValue (k : sqlkind) (v : gval) (m : ids) (t : list enum_row) : result (gval * ids * list enum_row) :=
    match v with
    | VNil => Done (VNil, m, t)
    | _ =>
        match k with
        | sfkEnum =>
            match literals en, convert v with
            | Some ls, Some s =>
                match position ls s with
                | Some i => match nth_error ls i with
                            | Some l => Done (encodeEnumLiteral m t i (getLiteral l))
                            | None => Error
                            end
                | None => Error
                end
            | _, _ => Panicked
            end
        | sfkBool | sfkByte | sfkInt | sfkInt16 | sfkInt32 | sfkInt64 | sfkString | sfkByteArray | sfkFloat32 | sfkFloat64 => Done (v, m, t)
        | sfkDate => match v with VTime x => Done (VString (format_rfc3339 x), m, t) | _ => Panicked end
        | sfkData | sfkDataList => match convert v with Some s => Done (VString s, m, t) | None => Panicked end
        | _ => Done (VNil, m, t)
        end
    end.

  (** sqldecoder.go:20-37 *)
  Definition decodeAny (x : sql) : gval :=
    match x with SNull => VNil | SInt n => VInt64 n | SText s => VString s | SReal f => VFloat64 f | SBlob b => VBytes (Some b) end.

  (** sqldecoder.go:342-386 *)
  Definition decodeEnumLiteral (m : ids) (t : list enum_row) (n : Z) : result (literal * ids) :=
    match literal_of m n with
    | Some (e, i) => match literals e with
                     | Some ls => match nth_error ls i with Some l => Done (l, m) | None => Error end
                     | None => Error
                     end
    | None =>
        match find (fun r => rid r =? n) t with
        | Some r =>
            match literals (renum r) with
            | Some ls =>
                match position ls (rliteral r) with
                | Some i => match nth_error ls i with Some l => Done (l, m ++ [(renum r, i, rid r)]) | None => Error end
                | None => Error
                end
            | None => Error
            end
        | None => Error
        end
    end.

  Definition or_panic (x : option gval) : result gval := match x with Some v => Done v | None => Panicked end.

  (** sqldecoder.go:388-573, the kinds of attributes; what is added to the identifier manager is left out *)
  Definition decodeFeatureValue (k : sqlkind) (m : ids) (t : list enum_row) (v : gval) : result gval :=
    match k with
    | sfkBool => match v with VNil => Done (VBool false) | VInt64 n => Done (VBool (n =? 1)) | _ => Error end
    | sfkByte => match v with VNil => Done (VByte 0) | VInt64 n => Done (VByte (n mod 256)) | _ => Error end
    | sfkInt => match v with VNil => Done (VInt 0) | VInt64 n => Done (VInt n) | _ => Error end
    | sfkInt64 => match v with VNil => Done (VInt64 0) | VInt64 n => Done (VInt64 n) | _ => Error end
    | sfkInt32 => match v with VNil => Done (VInt32 0) | VInt64 n => Done (VInt32 (wrap 32 n)) | _ => Error end
    | sfkInt16 => match v with VNil => Done (VInt16 0) | VInt64 n => Done (VInt16 (wrap 16 n)) | _ => Error end
    | sfkEnum =>
        match v with
        | VNil => Done default
        | VInt64 n =>
            match decodeEnumLiteral m t n with
            | Done (l, _) => match linstance l with VNil => or_panic (create (getLiteral l)) | w => Done w end
            | Error => Error
            | Panicked => Panicked
            end
        | _ => Error
        end
    | sfkString => match v with VNil => Done (VString []) | VString s => Done (VString s) | _ => Error end
    | sfkByteArray => match v with VNil => Done VNil | VBytes b => Done (VBytes b) | _ => Error end
    | sfkDate =>
        match v with
        | VNil => Done VNil
        | VString s => match parse_rfc3339 s with Some x => Done (VTime x) | None => Error end
        | VTime x => Done (VTime x)
        | _ => Error
        end
    | sfkFloat64 => match v with VNil => Done (VFloat64 (SpecFloat.S754_zero false)) | VFloat64 f => Done (VFloat64 f) | _ => Error end
    | sfkFloat32 => match v with VNil => Done (VFloat32 (SpecFloat.S754_zero false)) | VFloat64 f => Done (VFloat32 (narrow f)) | _ => Error end
    | sfkData | sfkDataList =>
        match v with
        | VNil => Done VNil
        | VBytes b => or_panic (create (match b with Some b => b | None => [] end))
        | VString s => or_panic (create s)
        | _ => Error
        end
    | _ => Done VNil
    end.

  (** the type of the column of an attribute (sqlschema.go:469-518): a reference to the enums table, the
      column of the table of a list, or attribute_type *)
  Definition column_type (k : sqlkind) : str :=
    match k with
    | sfkEnum => lit "INTEGER"
    | sfkDataList => lit "TEXT"
    | _ => match attribute_type k with Some t => t | None => [] end
    end.
End Values.

(** ** references (sqlencoder.go:426-435, sqldecoder.go:399-429) *)
Inductive target := NoTarget | Local (id : Z) | Proxy (uri : str).
(** [sqlID]: GetObjectID, 0 if the object has none; [uri]: the relativized URI *)
Definition encodeReference (sqlID : Z) (uri : str) : str := if sqlID =? 0 then uri else itoa sqlID.
Definition decodeReference (s : str) : target :=
  match s with
  | [] => NoTarget
  | _ => match parse_int 64 s with (n, true) => Local n | (_, false) => Proxy s end
  end.
