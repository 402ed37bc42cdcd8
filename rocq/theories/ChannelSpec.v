(** What an observer of an unbounded channel may see. *)
From Verif Require Import Base ChannelModel.

Definition sent {T} (tr : list (label T)) : list T :=
  flat_map (fun l => match l with LSend v => [v] | _ => [] end) tr.
Definition received {T} (tr : list (label T)) : list T :=
  flat_map (fun l => match l with LRecv v => [v] | _ => [] end) tr.

Definition prefix {T} (a b : list T) : Prop := exists c, b = a ++ c.

(** the calls to Close do not overlap: a goroutine enters Close only when no other is inside *)
Definition inside {T} (c : chan T) (g : nat) : Prop := closers c g = C1 \/ closers c g = C2.
Inductive serial_run {T} : chan T -> list (label T) -> chan T -> Prop :=
| sr_nil c : serial_run c [] c
| sr_snoc c tr c' l c'' : serial_run c tr c' -> label_ok c' l -> step c' l = Some c'' ->
    (forall g g', l = LLoad g -> ~ inside c' g') -> l <> LSendPanic -> serial_run c (tr ++ [l]) c''.
