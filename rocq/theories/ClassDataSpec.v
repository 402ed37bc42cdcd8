(** What is expected of goroutines that ask for the data of classes. *)
From Verif Require Import Base ClassDataModel.

Section ClassDataSpec.
  Context (supers : nat -> list nat).
  Definition cfinished (s : cstate) : Prop := forall t, In t (snd s) -> cstack t = [] /\ cjobs t = [].
  (** no class is its own super type, directly or not: classes can be numbered so that super types come first *)
  Definition acyclic : Prop := exists rank : nat -> nat, forall c s, In s (supers c) -> (rank s < rank c)%nat.
  (** each class in the list comes after its super types *)
  Definition after_supers (l : list nat) : Prop :=
    forall a c b, l = a ++ c :: b -> incl (supers c) a.
End ClassDataSpec.
