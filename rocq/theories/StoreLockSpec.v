(** What is expected of Lock and Unlock. *)
From Verif Require Import Base ListModel NotifyModel StoreListModel StoreObjModel StoreLockModel.

Section StoreLockSpec.
  Context {A : Type} (count : nat).
  (** the list [i] is the one of a feature *)
  Definition is_list (w : world A) (i : nat) : Prop := exists f, (f < count)%nat /\ wprops w f = Some (PList i).
  (** features do not share lists *)
  Definition unshared (w : world A) : Prop :=
    forall f g i, wprops w f = Some (PList i) -> wprops w g = Some (PList i) -> f = g.
End StoreLockSpec.
