(** Specification of literals: the values of a Go type. *)
From Coq Require Import String.
From Verif Require Import Base Chars TimeModel FloatModel LiteralModel.
Local Open Scope string_scope.
Local Open Scope list_scope.
Local Open Scope Z_scope.

Definition signed (bits n : Z) : Prop := - 2 ^ (bits - 1) <= n < 2 ^ (bits - 1).
(** the values of the Go types *)
Definition of_go_type (t : string) (v : gval) : Prop :=
  match v with
  | VInt n => t = "int" /\ signed 64 n
  | VInt64 n => t = "int64" /\ signed 64 n
  | VInt32 n => t = "int32" /\ signed 32 n
  | VInt16 n => t = "int16" /\ signed 16 n
  | VInt8 n => t = "int8" /\ signed 8 n
  | VUint64 n => t = "uint64" /\ 0 <= n < 2 ^ 64
  | VByte n => t = "byte" /\ 0 <= n < 256
  | VBool _ => t = "bool"
  | VString _ => t = "string"
  | VBytes _ => t = "[]byte"
  | VFloat64 f => t = "float64" /\ is_float64 f
  | VFloat32 f => t = "float32" /\ is_float32 f
  | VTime x => t = "*time.Time" /\ 0 <= nsec x < 1000000000 /\ -86400 < off x < 86400
  | VNil | VOther _ => False
  end.

(** the Go type of an instance type name, Java names included *)
Definition go_types : list (string * string) :=
  [("float64", "float64"); ("java.lang.Double", "float64"); ("double", "float64");
   ("float32", "float32"); ("java.lang.Float", "float32"); ("float", "float32");
   ("int", "int"); ("java.lang.Integer", "int");
   ("uint64", "uint64"); ("com.google.common.primitives.UnsignedLong", "uint64");
   ("int64", "int64"); ("java.lang.Long", "int64"); ("java.math.BigInteger", "int64"); ("long", "int64");
   ("int32", "int32"); ("int16", "int16"); ("java.lang.Short", "int16"); ("short", "int16"); ("int8", "int8");
   ("bool", "bool"); ("java.lang.Boolean", "bool"); ("boolean", "bool");
   ("string", "string"); ("java.lang.String", "string"); ("byte[]", "[]byte"); ("[]byte", "[]byte")].

(** reading back what was written gives the value *)
Definition round_trips (convert : gval -> option str) (create : str -> option gval) (v : gval) : Prop :=
  exists s, convert v = Some s /\ create s = Some v.

(** strconv: "The special precision -1 uses the smallest number of digits necessary such that ParseFloat
    will return f exactly" *)
Definition exact_format (is_float : float -> Prop) (format : float -> str) (parse : str -> float) : Prop :=
  forall x, is_float x -> parse (format x) = x.
(** ParseFloat returns a number of the given size *)
Definition sized (is_float : float -> Prop) (parse : str -> float) : Prop := forall s, is_float (parse s).

(** a time with four digits of year, in UTC, without fractions of milliseconds *)
Definition milli_time (t : time) : Prop :=
  off t = 0 /\ nsec t mod 1000000 = 0 /\
  days_of_date 0 1 1 <= sec t / 86400 + epoch < days_of_date 10000 1 1.

(** the Go types of the data types of Ecore; no literals for the two Java ones *)
Definition ecore_go_type (e : ecore_type) : string :=
  match e with
  | EBigDecimal | EDouble | EDoubleObject => "float64"
  | EFloat | EFloatObject => "float32"
  | EBigInteger | ELong => "int64"
  | EBoolean | EBooleanObject => "bool"
  | EByte | EByteObject | EChar | ECharacterObject => "byte"
  | EByteArray => "[]byte"
  | EDate => "*time.Time"
  | EInt | EIntegerObject | ELongObject => "int"
  | EShort | EShortObject => "int16"
  | EString => "string"
  | EJavaClass | EJavaObject => ""
  end.
