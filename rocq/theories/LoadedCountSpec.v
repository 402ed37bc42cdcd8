(** Counting the notifications about the loaded flag. *)
From Verif Require Import Base.

Fixpoint ups (l : list (bool * bool)) : nat :=
  match l with [] => 0 | (false, true) :: l' => S (ups l') | _ :: l' => ups l' end%nat.
Fixpoint downs (l : list (bool * bool)) : nat :=
  match l with [] => 0 | (true, false) :: l' => S (downs l') | _ :: l' => downs l' end%nat.
Definition change (n : bool * bool) : Prop := fst n <> snd n.
