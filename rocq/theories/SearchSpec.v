(** What it means to search a sorted list. *)
From Verif Require Import Base SearchModel.

Section SearchSpec.
  Context {A T : Type} (cmp : A -> T -> Z).

  (** elements preceding the target come first, elements following it come last *)
  Definition sorted_for (l : list A) (t : T) : Prop :=
    forall n m x y, (n < m)%nat -> nth_error l n = Some x -> nth_error l m = Some y ->
      (0 <= cmp x t -> 0 <= cmp y t) /\ (0 < cmp x t -> 0 < cmp y t).

  (** [p] is where [t] belongs: everything before is smaller, nothing from there on is *)
  Definition insertion_point (l : list A) (t : T) (p : nat) : Prop :=
    (p <= length l)%nat /\
    (forall n x, (n < p)%nat -> nth_error l n = Some x -> cmp x t < 0) /\
    (forall n x, (p <= n)%nat -> nth_error l n = Some x -> 0 <= cmp x t).
End SearchSpec.
