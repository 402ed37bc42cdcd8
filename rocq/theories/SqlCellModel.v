(** Model of the single-valued attributes of the objects of a SQL store, and of the containers of these
    objects: Get, Set, IsSet, UnSet, GetContainer and SetContainer of ecore/sqlstore.go with the part of
    ecore/sqlencoder.go they use.

    An operation is executed after the previous one has ended (the scheduling of operations is in
    SqlSchedModel, which also has the answers given while a write is pending).  The values in columns are
    those of SqlValueModel.  An object has no value of its own when it is first stored, and its identifier is
    given by the database (AUTOINCREMENT).  SQLite answers every query. *)
From Coq Require Import String.
From Verif Require Import Base Chars StrconvModel TimeModel FloatModel LiteralModel SqlSchemaModel SqlValueModel.
Local Open Scope string_scope.
Local Open Scope list_scope.
Local Open Scope Z_scope.

(** a single-valued attribute: its kind, its enumeration, GetDefaultValue, and the conversions of its type *)
Record attr := mkA { akind : sqlkind; aen : enum; adefault : gval;
  acreate : str -> option gval; aconvert : gval -> option str }.

(** classes and features are numbered.  [own]: GetEStructuralFeatures, the features of the schema of the class
    (sqlschema.go:436-441); [hierarchy]: the class and GetEAllSuperTypes (sqlencoder.go:594-598);
    [features]: GetEAllStructuralFeatures; [static]: EStaticFeatureCount of the instances *)
Record meta := mkMeta {
  attribute : nat -> attr;
  own : nat -> list nat;
  hierarchy : nat -> list nat;
  features : nat -> list nat;
  static : nat -> nat;
  containing : nat -> nat;        (* GetEContainingClass *)
  literals : enum -> option (list literal) }.

(** what a call answers: a value, or a Go error given as a value (sqlstore.go:1390, 1413) *)
Inductive answer := Value (v : gval) | ErrorValue.

(** GetFeatureID: eclass_ext.go:158-169, with the identifier of a feature the position in its own class,
    -1 if it is not a feature of the class *)
Fixpoint index_from (i : Z) (l : list nat) (f : nat) : Z :=
  match l with [] => -1 | x :: l' => if Nat.eqb x f then i else index_from (i + 1) l' f end.
Definition getFeatureID (M : meta) (c f : nat) : Z := index_from 0 (features M c) f.
(** GetEStructuralFeature(id): nil if there is none *)
Definition getFeature (M : meta) (c : nat) (i : Z) : option nat :=
  if i <? 0 then None else nth_error (features M c) (Z.to_nat i).

(** a row of the objects table *)
Record object_row := mkO { oclass : nat; ocontainer : option Z; ofeature : option Z }.
(** [sid]: the identifiers of the objects (SQLStoreIDManager); [rows]: the objects table; [cells]: the row of
    the object in the table of the class that declares the feature, None if there is no row *)
Record db := mkDB {
  sid : nat -> option Z;
  nextID : Z;
  rows : Z -> option object_row;
  cells : Z -> nat -> option sql;
  known : ids;                     (* identifiers of the literals of enumerations *)
  enums : list enum_row }.

Definition fresh : db := mkDB (fun _ => None) 1 (fun _ => None) (fun _ _ => None) [] [].

Section Store.
  Context (M : meta) (class_of : nat -> nat).
  Context (sprint : gval -> str) (convert_sql : str -> sql -> sql).

  Definition nat_in (f : nat) (l : list nat) : bool := existsb (Nat.eqb f) l.

  (** sqlencoder.go:281-418 for an object without values, whose container is given: its row, and a row of
      NULLs in the table of each class of its hierarchy *)
  Definition encodeObject (d : db) (o : nat) (container feature : Z) : db * Z :=
    let i := nextID d in
    let c := class_of o in
    (mkDB (fun x => if Nat.eqb x o then Some i else sid d x) (i + 1)
       (fun n => if n =? i then Some (if container >? 0 then mkO c (Some container) (Some feature) else mkO c None None) else rows d n)
       (fun n f => if (n =? i) && existsb (fun c' => nat_in f (own M c')) (hierarchy M c) then Some SNull else cells d n f)
       (known d) (enums d), i).

  (** sqlstore.go:943-978 *)
  Definition encodeSQLID (d : db) (o : nat) : db * Z :=
    match sid d o with Some i => (d, i) | None => encodeObject d o (-1) (-1) end.

  (** sqlstore.go:888-901, 911-928: only the features of the class itself *)
  Definition getFeatureSchema (o f : nat) : option attr :=
    if nat_in f (own M (class_of o)) then Some (attribute M f) else None.

  (** SELECT of a column, nil without a row (sqlstore.go:1406-1413); UPDATE of a column (sqlstore.go:1463-1474) *)
  Definition select (d : db) (i : Z) (f : nat) : gval :=
    match cells d i f with Some x => decodeAny x | None => VNil end.
  Definition update (d : db) (i : Z) (f : nat) (x : sql) : db :=
    mkDB (sid d) (nextID d) (rows d)
      (fun n g => if (n =? i) && Nat.eqb g f then match cells d n g with Some _ => Some x | None => None end else cells d n g)
      (known d) (enums d).

  (** sqlstore.go:1394-1417; what decoding adds to the identifier manager is left out *)
  Definition getValue (d : db) (i : Z) (f : nat) (a : attr) : result gval :=
    decodeFeatureValue (literals M) (acreate a) (adefault a) (akind a) (known d) (enums d) (select d i f).

  (** sqlstore.go:1379-1392, and 1352-1377: an error is answered by nil, but an unknown feature by the error *)
  Definition get (d : db) (o f : nat) : result answer :=
    match sid d o with
    | None => Done (Value VNil)
    | Some i =>
        match getFeatureSchema o f with
        | None => Done ErrorValue
        | Some a => match getValue d i f a with
                    | Done v => Done (Value v)
                    | Error => Done (Value VNil)
                    | Panicked => Panicked
                    end
        end
    end.

  Definition stored (a : attr) (v : gval) : sql := store convert_sql (column_type (akind a)) (bind_arg sprint v).

  (** sqlstore.go:1432-1479: an error ends the operation; the old value is decoded when the result is needed *)
  Definition set (d : db) (o f : nat) (v : gval) (needResult : bool) : result db :=
    let (d1, i) := encodeSQLID d o in
    match getFeatureSchema o f with
    | None => Done d1
    | Some a =>
        match (if needResult then getValue d1 i f a else Done VNil) with
        | Error => Done d1
        | Panicked => Panicked
        | Done _ =>
            match encodeFeatureValue (literals M) (aconvert a) (aen a) (akind a) v (known d1) (enums d1) with
            | Done (x, m, t) => Done (update (mkDB (sid d1) (nextID d1) (rows d1) (cells d1) m t) i f (stored a x))
            | Error => Done d1
            | Panicked => Panicked
            end
        end
    end.

  (** the comparison != of Go of a value of the database with the default value *)
  Definition differ (x y : gval) : result bool :=
    match x, y with
    | VNil, VNil => Done false
    | VInt64 n, VInt64 k => Done (negb (n =? k))
    | VString s, VString t => Done (negb (str_eqb s t))
    | VFloat64 f, VFloat64 g => Done (negb (SpecFloat.SFeqb f g))
    | VBytes _, VBytes _ => Panicked
    | _, _ => Done true
    end.

  (** sqlstore.go:1491-1529: the value of the database is compared as it is *)
  Definition isSet (d : db) (o f : nat) : result bool :=
    match sid d o with
    | None => Done false
    | Some i =>
        match getFeatureSchema o f with
        | None => Done false
        | Some a => differ (select d i f) (adefault a)
        end
    end.

  (** sqlstore.go:1542-1566: the default value is stored as it is *)
  Definition unSet (d : db) (o f : nat) : db :=
    let (d1, i) := encodeSQLID d o in
    match getFeatureSchema o f with
    | None => d1
    | Some a => update d1 i f (stored a (adefault a))
    end.

  (** sqlstore.go:2140-2187: the container and its feature.  The object of an identifier is one with that
      identifier; [None] is nil or an error *)
  Definition getContainer (d : db) (o : nat) : option (Z * option nat) :=
    match sid d o with
    | None => None
    | Some i =>
        match rows d i with
        | Some (mkO _ (Some c) x) =>
            if c =? 0 then None else
            match rows d c with
            | Some r => Some (c, getFeature M (oclass r)
                (Z.of_nat (static M (oclass r)) + match x with Some k => k | None => 0 end))
            | None => None
            end
        | _ => None
        end
    end.

  (** sqlstore.go:2208-2234 *)
  Definition setContainer (d : db) (o c f : nat) : db :=
    let (d1, i) := encodeSQLID d o in
    let (d2, k) := encodeSQLID d1 c in
    mkDB (sid d2) (nextID d2)
      (fun n => match rows d2 n with
                | Some r => Some (if n =? i then mkO (oclass r) (Some k) (Some (getFeatureID M (class_of c) f)) else r)
                | None => None
                end)
      (cells d2) (known d2) (enums d2).

  (** sqlencoder.go:420-425, 622: a child that is first stored with its container, as the value of a
      containment: the identifier of the feature is the one of the class that declares it *)
  Definition encodeChild (d : db) (o c f : nat) : db * Z :=
    let (d1, k) := encodeSQLID d c in
    match sid d1 o with
    | Some i => (d1, i)
    | None => encodeObject d1 o k (getFeatureID M (containing M f) f)
    end.

  (** calls *)
  Inductive call := Set_ (o f : nat) (v : gval) (needResult : bool) | UnSet_ (o f : nat) | SetContainer_ (o c f : nat).
  Definition perform (d : db) (k : call) : result db :=
    match k with
    | Set_ o f v r => set d o f v r
    | UnSet_ o f => Done (unSet d o f)
    | SetContainer_ o c f => Done (setContainer d o c f)
    end.
  Fixpoint performAll (d : db) (ks : list call) : result db :=
    match ks with
    | [] => Done d
    | k :: ks' => match perform d k with Done d' => performAll d' ks' | Error => Error | Panicked => Panicked end
    end.
End Store.
