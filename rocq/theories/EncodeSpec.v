(** What is expected of goroutines that encode objects. *)
From Verif Require Import Base EncodeModel.

Section EncodeSpec.
  Context (kids : nat -> list nat) (init : nat -> bool) (work : list (list nat)).

  (** all calls have returned *)
  Definition finished (s : state) : Prop := forall t, In t (snd s) -> stack t = [] /\ jobs t = [].
  (** no call returned an error *)
  Definition no_error (s : state) : Prop := forall t o b, In t (snd s) -> In (o, b) (outs t) -> b = true.
  Definition requested (o : nat) : Prop := exists js, In js work /\ In o js.
  (** the objects to be encoded: those requested and the contents of these, without those that have an id *)
  Inductive new_from : nat -> nat -> Prop :=
  | nf_self o : init o = false -> new_from o o
  | nf_kid r o k : new_from r o -> In k (kids o) -> init k = false -> new_from r k.
  (** a finite set of objects that contains the contents of its objects *)
  Definition closed (N : list nat) : Prop := NoDup N /\ (forall o, In o N -> incl (kids o) N).
End EncodeSpec.
