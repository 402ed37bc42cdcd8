(** Specification of the values in SQL columns. *)
From Coq Require Import String.
From Verif Require Import Base Chars StrconvModel TimeModel FloatModel LiteralModel LiteralSpec SqlSchemaModel SqlValueModel.
Local Open Scope string_scope.
Local Open Scope list_scope.
Local Open Scope Z_scope.

(** the Go type of the values of a kind; enumerations and data have the type of their factory *)
Definition kind_type (k : sqlkind) : option string :=
  match k with
  | sfkBool => Some "bool" | sfkByte => Some "byte" | sfkInt => Some "int" | sfkInt64 => Some "int64" | sfkInt32 => Some "int32"
  | sfkInt16 => Some "int16" | sfkString => Some "string" | sfkByteArray => Some "[]byte" | sfkDate => Some "*time.Time"
  | sfkFloat64 => Some "float64" | sfkFloat32 => Some "float32"
  | _ => None
  end.

(** the identifiers of literals agree with the enums table, whose keys are distinct *)
Record consistent (literals : enum -> option (list literal)) (m : ids) (t : list enum_row) : Prop := mkConsistent {
  c_ids : forall e i n, In (e, i, n) m ->
    exists ls l r, literals e = Some ls /\ nth_error ls i = Some l /\ In r t /\ rid r = n /\ renum r = e /\ rliteral r = getLiteral l /\
      forall j l', (j < i)%nat -> nth_error ls j = Some l' -> getLiteral l' <> getLiteral l;
  c_keys : NoDup (map rid t)
}.
(** rows are only added *)
Definition extends (t t' : list enum_row) : Prop := exists u, t' = t ++ u.

(** a value that is written in a column is read back from it, at any later time, by any decoder *)
Definition column_round_trip literals create convert en default sprint convert_sql (k : sqlkind) (v : gval) : Prop :=
  forall m t, consistent literals m t ->
  exists x m' t',
    encodeFeatureValue literals convert en k v m t = Done (x, m', t') /\ consistent literals m' t' /\ extends t t' /\
    forall m2 t2, consistent literals m2 t2 -> extends t' t2 ->
      decodeFeatureValue literals create default k m2 t2 (decodeAny (store convert_sql (column_type k) (bind_arg sprint x))) = Done v.

(** seconds, with minutes of offset, and four digits of year *)
Definition second_time (t : time) : Prop :=
  nsec t = 0 /\ off t mod 60 = 0 /\ days_of_date 0 1 1 <= (sec t + off t) / 86400 + epoch < days_of_date 10000 1 1.

(** the values a column holds *)
Definition storable (literals : enum -> option (list literal)) (create : str -> option gval) (convert : gval -> option str) (en : enum)
  (k : sqlkind) (v : gval) : Prop :=
  v <> VNil /\
  match k with
  | sfkEnum =>
      exists ls s l, literals en = Some ls /\ convert v = Some s /\ getEEnumLiteralByLiteral ls s = Some l /\
        (linstance l = v \/ linstance l = VNil /\ create s = Some v)
  | sfkData | sfkDataList => round_trips convert create v
  | _ =>
      exists ty, kind_type k = Some ty /\ of_go_type ty v /\
        match v with
        | VBytes b => b <> None
        | VFloat64 f | VFloat32 f => f <> SpecFloat.S754_nan /\ f <> SpecFloat.S754_zero true
        | VTime x => second_time x
        | _ => True
        end
  end.

(** the value of an attribute that is NULL *)
Definition zero_of (default : gval) (k : sqlkind) : gval :=
  match k with
  | sfkBool => VBool false | sfkByte => VByte 0 | sfkInt => VInt 0 | sfkInt64 => VInt64 0 | sfkInt32 => VInt32 0 | sfkInt16 => VInt16 0
  | sfkString => VString [] | sfkFloat64 => VFloat64 (SpecFloat.S754_zero false) | sfkFloat32 => VFloat32 (SpecFloat.S754_zero false)
  | sfkEnum => default
  | _ => VNil
  end.
