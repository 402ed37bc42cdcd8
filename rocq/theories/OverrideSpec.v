(** When an operation overrides another. *)
From Verif Require Import Base OverrideModel.

(** the classes strictly above *)
Inductive above (h : hierarchy) : nat -> nat -> Prop :=
| above_direct a b : In a (supers h b) -> above h a b
| above_step a b c : above h a b -> In b (supers h c) -> above h a c.
Definition at_or_above (h : hierarchy) (a b : nat) : Prop := a = b \/ above h a b.
Definition same_signature (h : hierarchy) (p o : nat) : Prop := opname h p = opname h o /\ params h p = params h o.
(** [p] belongs to a class at or below (strictly below) that of [o] and has its signature *)
Definition replaces (h : hierarchy) (p o : nat) : Prop :=
  exists a b, owner h o = Some a /\ owner h p = Some b /\ at_or_above h a b /\ same_signature h p o.
Definition replaces_below (h : hierarchy) (p o : nat) : Prop :=
  exists a b, owner h o = Some a /\ owner h p = Some b /\ above h a b /\ same_signature h p o.
(** an operation belongs to the class it is declared in *)
Definition owned (h : hierarchy) : Prop := forall o c, owner h o = Some c <-> In o (opers h c).
(** no class is above itself: classes have a rank below the fuel *)
Definition ranked (h : hierarchy) (fuel : nat) : Prop :=
  exists rank : nat -> nat, (forall a b, In a (supers h b) -> (rank a < rank b)%nat) /\ forall c, (rank c < fuel)%nat.
