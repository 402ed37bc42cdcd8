(** Specification of the single-valued attributes and of the containers of a SQL store: what the calls made so
    far say, independently of tables. *)
From Coq Require Import String.
From Verif Require Import Base Chars StrconvModel TimeModel FloatModel LiteralModel LiteralSpec SqlSchemaModel SqlValueModel SqlValueSpec SqlCellModel.
Local Open Scope list_scope.
Local Open Scope Z_scope.

(** the calls concern the object *)
Definition concerns (o : nat) (k : call) : Prop :=
  match k with Set_ o' _ _ _ | UnSet_ o' _ => o' = o | SetContainer_ o' c _ => o' = o \/ c = o end.
Definition touched (ks : list call) (o : nat) : Prop := exists k, In k ks /\ concerns o k.

(** the value given last to the attribute; UnSet gives the default value *)
Fixpoint last_value (M : meta) (ks : list call) (o f : nat) (now : option gval) : option gval :=
  match ks with
  | [] => now
  | Set_ o' f' v _ :: ks' => last_value M ks' o f (if Nat.eqb o' o && Nat.eqb f' f then Some v else now)
  | UnSet_ o' f' :: ks' => last_value M ks' o f (if Nat.eqb o' o && Nat.eqb f' f then Some (adefault (attribute M f)) else now)
  | SetContainer_ _ _ _ :: ks' => last_value M ks' o f now
  end.
(** the container given last *)
Fixpoint last_container (ks : list call) (o : nat) (now : option (nat * nat)) : option (nat * nat) :=
  match ks with
  | [] => now
  | SetContainer_ o' c f :: ks' => last_container ks' o (if Nat.eqb o' o then Some (c, f) else now)
  | _ :: ks' => last_container ks' o now
  end.

(** a value that columns of the attribute hold *)
Definition holdable (M : meta) (f : nat) (v : gval) : Prop :=
  let a := attribute M f in storable (literals M) (acreate a) (aconvert a) (aen a) (akind a) v.
(** kinds whose values are stored as they are *)
Definition as_is (k : sqlkind) : Prop :=
  match k with
  | sfkBool | sfkByte | sfkInt | sfkInt16 | sfkInt32 | sfkInt64 | sfkString | sfkByteArray | sfkFloat32 | sfkFloat64 => True
  | _ => False
  end.
(** a call on an attribute declared by the class of the object itself *)
Definition declared (M : meta) (class_of : nat -> nat) (o f : nat) : Prop := In f (own M (class_of o)).
Definition regular (M : meta) (class_of : nat -> nat) (k : call) : Prop :=
  match k with
  | Set_ o f v _ => declared M class_of o f /\ holdable M f v
  | UnSet_ o f => declared M class_of o f /\ as_is (akind (attribute M f)) /\ holdable M f (adefault (attribute M f))
  | SetContainer_ _ _ _ => True
  end.
(** the hierarchy of a class starts with the class; dynamic objects have no static features *)
Definition proper (M : meta) : Prop := (forall c, In c (hierarchy M c)) /\ (forall c, static M c = O).

(** the answer for an attribute that was never given a value *)
Definition never_set (M : meta) (f : nat) : gval := zero_of (adefault (attribute M f)) (akind (attribute M f)).

(** kinds whose values are those of the database *)
Definition database_kind (k : sqlkind) : Prop := k = sfkInt64 \/ k = sfkString \/ k = sfkFloat64.
(** kinds whose values have another Go type than what the database gives *)
Definition converted_kind (k : sqlkind) : Prop :=
  k = sfkBool \/ k = sfkByte \/ k = sfkInt \/ k = sfkInt16 \/ k = sfkInt32 \/ k = sfkFloat32.
