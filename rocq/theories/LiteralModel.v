(** Model of the conversions between values and literals: ecore/efactory_ext.go (EFactoryExt, the factory
    of dynamic packages), ecore/ecorefactory_impl.go (EcoreFactoryImpl), ecore/eenum_ext.go,
    ecore/eenumliteral_ext.go and getInstanceTypeName of ecore/edatatype_ext.go.

    A Go value of type any is a [gval]: its dynamic type and its value.  Strings are lists of bytes.
    [None] is a panic.  strconv is modelled in StrconvModel, time in TimeModel; strconv.FormatFloat and
    strconv.ParseFloat are external and given as functions. *)
From Coq Require Import String.
From Verif Require Import Base Chars StrconvModel TimeModel FloatModel.
Local Open Scope string_scope.
Local Open Scope list_scope.
Local Open Scope Z_scope.

(** [VBytes None]: a nil slice of bytes; [VOther]: any other value *)
Inductive gval :=
| VNil | VInt (n : Z) | VInt64 (n : Z) | VInt32 (n : Z) | VInt16 (n : Z) | VInt8 (n : Z) | VUint64 (n : Z) | VByte (n : Z)
| VBool (b : bool) | VString (s : str) | VBytes (b : option str) | VFloat64 (f : float) | VFloat32 (f : float)
| VTime (t : time) | VOther (n : nat).

(** the comma-ok form of type assertions: the zero value when the type is another *)
Definition as_int (v : gval) : Z := match v with VInt n => n | _ => 0 end.
Definition as_int64 (v : gval) : Z := match v with VInt64 n => n | _ => 0 end.
Definition as_int32 (v : gval) : Z := match v with VInt32 n => n | _ => 0 end.
Definition as_int16 (v : gval) : Z := match v with VInt16 n => n | _ => 0 end.
Definition as_int8 (v : gval) : Z := match v with VInt8 n => n | _ => 0 end.
Definition as_uint64 (v : gval) : Z := match v with VUint64 n => n | _ => 0 end.
Definition as_bool (v : gval) : bool := match v with VBool b => b | _ => false end.
Definition as_float64 (v : gval) : float := match v with VFloat64 f => f | _ => SpecFloat.S754_zero false end.
Definition as_float32 (v : gval) : float := match v with VFloat32 f => f | _ => SpecFloat.S754_zero false end.
Definition as_string (v : gval) : str := match v with VString s => s | _ => [] end.

(** conversions int32(value), int16(value), int8(value) of an int64 *)
Definition wrap (bits n : Z) : Z := (n + 2 ^ (bits - 1)) mod 2 ^ bits - 2 ^ (bits - 1).

(** strconv.ParseUint(s, 10, 64), strconv.FormatBool, strconv.ParseBool *)
Definition parse_uint64 (s : str) : Z * bool :=
  match s with
  | [] => (0, false)
  | _ => match number 0 s with
         | None => (0, false)
         | Some n => if n <? 2 ^ 64 then (n, true) else (2 ^ 64 - 1, false)
         end
  end.
Definition format_bool (b : bool) : str := if b then lit "true" else lit "false".
Definition parse_bool (s : str) : bool :=
  existsb (fun t => str_eqb (lit t) s) ["1"; "t"; "T"; "TRUE"; "true"; "True"].

(** eenumliteral_ext.go:23-28; [linstance]: GetInstance *)
Record literal := mkL { lname : str; lliteral : str; lvalue : Z; linstance : gval }.
Definition getLiteral (l : literal) : str := match lliteral l with [] => lname l | s => s end.
(** eenum_ext.go:40-60 *)
Definition getEEnumLiteralByValue (ls : list literal) (v : Z) : option literal := find (fun l => lvalue l =? v) ls.
Definition getEEnumLiteralByLiteral (ls : list literal) (s : str) : option literal := find (fun l => str_eqb (getLiteral l) s) ls.

(** a data type: its literals if it is an enumeration, its instance type name, and the instance type name
    of its GenGo annotation ("" if there is none) *)
Record datatype := mkD { denum : option (list literal); dinstance : str; dannotation : str }.
(** edatatype_ext.go:68-75 *)
Definition getInstanceTypeName (d : datatype) : str := match dannotation d with [] => dinstance d | s => s end.

Section Conversions.
  (** FormatFloat(x, 'f', -1, bits) and the first result of ParseFloat(s, bits), bits = 64 and 32 *)
  Context (format64 format32 : float -> str) (parse64 parse32 : str -> float).

  Inductive gtype := GFloat64 | GFloat32 | GInt | GUint64 | GInt64 | GInt32 | GInt16 | GInt8 | GBool | GString | GBytes.
  (** the cases of the switch of efactory_ext.go:66-96 *)
  Definition type_switch (name : str) : option gtype :=
    let is l := existsb (fun t => str_eqb (lit t) name) l in
    if is ["float64"; "java.lang.Double"; "double"] then Some GFloat64
    else if is ["float32"; "java.lang.Float"; "float"] then Some GFloat32
    else if is ["int"; "java.lang.Integer"] then Some GInt
    else if is ["uint64"; "com.google.common.primitives.UnsignedLong"] then Some GUint64
    else if is ["int64"; "java.lang.Long"; "java.math.BigInteger"; "long"] then Some GInt64
    else if is ["int32"] then Some GInt32
    else if is ["int16"; "java.lang.Short"; "short"] then Some GInt16
    else if is ["int8"] then Some GInt8
    else if is ["bool"; "java.lang.Boolean"; "boolean"] then Some GBool
    else if is ["string"; "java.lang.String"] then Some GString
    else if is ["byte[]"; "[]byte"] then Some GBytes
    else None.

  (** efactory_ext.go:51-99, for a data type of the package of the factory *)
  Definition createFromString (d : datatype) (s : str) : option gval :=
    match denum d with
    | Some ls => match getEEnumLiteralByLiteral ls s with Some l => Some (VInt (lvalue l)) | None => None end
    | None =>
        match type_switch (getInstanceTypeName d) with
        | Some GFloat64 => Some (VFloat64 (parse64 s))
        | Some GFloat32 => Some (VFloat32 (parse32 s))
        | Some GInt => Some (VInt (fst (atoi s)))
        | Some GUint64 => Some (VUint64 (fst (parse_uint64 s)))
        | Some GInt64 => Some (VInt64 (fst (parse_int 64 s)))
        | Some GInt32 => Some (VInt32 (wrap 32 (fst (parse_int 32 s))))
        | Some GInt16 => Some (VInt16 (wrap 16 (fst (parse_int 16 s))))
        | Some GInt8 => Some (VInt8 (wrap 8 (fst (parse_int 8 s))))
        | Some GBool => Some (VBool (parse_bool s))
        | Some GString => Some (VString s)
        | Some GBytes => Some (VBytes (Some s))
        | None => None
        end
    end.
  (** efactory_ext.go:101-147; there is no case for slices of bytes *)
  Definition convertToString (d : datatype) (v : gval) : option str :=
    match denum d with
    | Some ls => match v with
                 | VInt n => match getEEnumLiteralByValue ls n with Some l => Some (getLiteral l) | None => None end
                 | _ => None
                 end
    | None =>
        match type_switch (getInstanceTypeName d) with
        | Some GFloat64 => Some (format64 (as_float64 v))
        | Some GFloat32 => Some (format32 (as_float32 v))
        | Some GInt => Some (itoa (as_int v))
        | Some GUint64 => Some (itoa (as_uint64 v))
        | Some GInt64 => Some (itoa (as_int64 v))
        | Some GInt32 => Some (itoa (as_int32 v))
        | Some GInt16 => Some (itoa (as_int16 v))
        | Some GInt8 => Some (itoa (as_int8 v))
        | Some GBool => Some (format_bool (as_bool v))
        | Some GString => match v with VString s => Some s | _ => None end
        | Some GBytes | None => None
        end
    end.

  (** edatatype_ext.go:40-66, no default value having been set *)
  Definition getDefaultValue (d : datatype) : gval :=
    match type_switch (getInstanceTypeName d) with
    | Some GFloat64 => VFloat64 (SpecFloat.S754_zero false)
    | Some GFloat32 => VFloat32 (SpecFloat.S754_zero false)
    | Some GInt => VInt 0 | Some GUint64 => VUint64 0 | Some GInt64 => VInt64 0 | Some GInt32 => VInt32 0
    | Some GInt16 => VInt16 0 | Some GInt8 => VInt8 0 | Some GBool => VBool false | Some GString => VString []
    | Some GBytes | None => VNil
    end.

  (** ** the factory of Ecore *)
  (** the data types of ecorefactory_impl.go:328-379 *)
  Inductive ecore_type :=
  | EBigDecimal | EBigInteger | EBoolean | EBooleanObject | EByte | EByteArray | EByteObject | EChar | ECharacterObject
  | EDate | EDouble | EDoubleObject | EFloat | EFloatObject | EInt | EIntegerObject | EJavaClass | EJavaObject
  | ELong | ELongObject | EShort | EShortObject | EString.

  (** the string a byte is created from when the literal is empty (ecorefactory_impl.go:475-481) *)
  Definition golang_nul : str := lit "golang" ++ [0].
  Definition create_byte (s : str) : gval := match s with [] => VString golang_nul | c :: _ => VByte c end.
  (** 0001-01-01T00:00:00Z, what time.Parse returns with an error *)
  Definition zero_time : time := mkTime (-62135596800) 0 0.

  (** ecorefactory_impl.go:328-379 and 435-675 *)
  Definition ecore_create (e : ecore_type) (s : str) : option gval :=
    match e with
    | EBigDecimal | EDouble | EDoubleObject => Some (VFloat64 (parse64 s))
    | EFloat | EFloatObject => Some (VFloat32 (parse32 s))
    | EBigInteger | ELong => Some (VInt64 (fst (parse_int 64 s)))
    | EBoolean | EBooleanObject => Some (VBool (parse_bool s))
    | EByte | EByteObject | EChar | ECharacterObject => Some (create_byte s)
    | EByteArray => Some (VBytes (Some s))
    | EDate => Some (VTime (match parse_milli s with Some t => t | None => zero_time end))
    | EInt | EIntegerObject | ELongObject => Some (VInt (fst (atoi s)))
    | EJavaClass | EJavaObject => None
    | EShort | EShortObject => Some (VInt16 (wrap 16 (fst (parse_int 16 s))))
    | EString => Some (VString s)
    end.
  (** ecorefactory_impl.go:382-433 and 435-675 *)
  Definition ecore_convert (e : ecore_type) (v : gval) : option str :=
    match e with
    | EBigDecimal | EDouble | EDoubleObject => Some (format64 (as_float64 v))
    | EFloat | EFloatObject => Some (format32 (as_float32 v))
    | EBigInteger | ELong => Some (itoa (as_int64 v))
    | EBoolean | EBooleanObject => Some (format_bool (as_bool v))
    | EByte | EByteObject | EChar | ECharacterObject => match v with VByte c => Some [c] | _ => None end
    | EByteArray => match v with VBytes (Some b) => Some b | VBytes None => Some [] | _ => None end
    | EDate => match v with VTime t => Some (format_milli t) | _ => None end
    | EInt | EIntegerObject | ELongObject => Some (itoa (as_int v))
    | EJavaClass | EJavaObject => None
    | EShort | EShortObject => Some (itoa (as_int16 v))
    | EString => Some (as_string v)
    end.
End Conversions.

(** the instance type names of the data types of Ecore (ecorepackage_impl.go:1424-1455) *)
Definition ecore_instance (e : ecore_type) : str :=
  match e with
  | EBigDecimal | EDouble | EDoubleObject => lit "float64"
  | EFloat | EFloatObject => lit "float32"
  | EBigInteger | ELong => lit "int64"
  | EBoolean | EBooleanObject => lit "bool"
  | EByte | EByteObject | EChar | ECharacterObject => lit "byte"
  | EByteArray => lit "[]byte"
  | EDate => lit "*time/time.Time"
  | EInt | EIntegerObject | ELongObject => lit "int"
  | EJavaClass => lit "reflect/reflect.Type"
  | EJavaObject => lit "any"
  | EShort | EShortObject => lit "int16"
  | EString => lit "string"
  end.
