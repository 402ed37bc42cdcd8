(** Property theorems: the unbounded channel (C29, C51). *)
From Verif Require Import Base ChannelModel ChannelSpec ChannelProofs.

(** in every interleaving, what was received so far is a prefix of what was sent so far *)
Theorem C29_fifo : forall T (tr : list (label T)) c,
  run newInfiniteChannel tr c -> prefix (received tr) (sent tr).
Proof. exact @fifo. Qed.
Print Assumptions C29_fifo.

(** out is closed only after Close, and by then everything sent has been received *)
Theorem C29_closed_when_drained : forall T (tr : list (label T)) c,
  run newInfiniteChannel tr c -> In LCloseOut tr -> received tr = sent tr /\ exists g, In (LCloseIn g) tr.
Proof. exact @closed_complete. Qed.
Print Assumptions C29_closed_when_drained.

(** whatever the receivers do, a send can always complete until Close *)
Theorem C29_sender_never_blocked : forall T (tr : list (label T)) c v,
  run newInfiniteChannel tr c -> in_closed c = false ->
  exists c', label_ok c (LSend v) /\ step c (LSend v) = Some c'.
Proof. exact @send_enabled. Qed.
Print Assumptions C29_sender_never_blocked.

(** the next value that was sent and not yet received can always be received *)
Theorem C29_receiver_never_blocked : forall T (tr : list (label T)) c v rest,
  run newInfiniteChannel tr c -> sent tr = received tr ++ v :: rest ->
  exists c', label_ok c (LRecv v) /\ step c (LRecv v) = Some c'.
Proof. exact @recv_enabled. Qed.
Print Assumptions C29_receiver_never_blocked.

(** after Close: some step towards closing out is always possible until out is closed ... *)
Theorem C29_drain_progress : forall T (tr : list (label T)) c,
  run newInfiniteChannel tr c -> in_closed c = true -> out_closed c = false ->
  exists l c', drain_label l /\ label_ok c l /\ step c l = Some c'.
Proof. exact @drain_enabled. Qed.
Print Assumptions C29_drain_progress.

(** ... and each such step decreases a measure, so out gets closed *)
Theorem C29_drain_terminates : forall T (c : chan T) l c',
  drain_label l -> label_ok c l -> step c l = Some c' -> (drain_measure c' < drain_measure c)%nat.
Proof. exact @drain_decreases. Qed.
Print Assumptions C29_drain_terminates.

Theorem C29_drains : forall T (tr : list (label T)) c,
  run newInfiniteChannel tr c -> in_closed c = true ->
  exists tr' c', Forall drain_label tr' /\ run newInfiniteChannel (tr ++ tr') c' /\ out_closed c' = true.
Proof. intros T tr c. exact (drains (drain_measure c) tr c (le_n _)). Qed.
Print Assumptions C29_drains.

(** Close never panics when the calls to Close do not overlap and nobody sends after Close *)
Theorem C51_close_safe_partial : forall T (tr : list (label T)) c,
  serial_run newInfiniteChannel tr c -> panicked c = false.
Proof. exact @serial_no_panic. Qed.
Print Assumptions C51_close_safe_partial.

(** two overlapping calls to Close may close the channel twice, which panics *)
Theorem C51_close_safe_refuted : exists (tr : list (label nat)) c,
  run newInfiniteChannel tr c /\ ~ In LSendPanic tr /\ panicked c = true.
Proof.
  exists [LLoad 0; LLoad 1; LStore 0; LStore 1; LCloseIn 0; LCloseIn 1]%nat. eexists.
  split; [|split].
  - repeat (eapply run_cons; [exact I|reflexivity|]). constructor.
  - cbn. intuition discriminate.
  - reflexivity.
Qed.
Print Assumptions C51_close_safe_refuted.

(** a run with sends, a close in the middle of a backlog, and the delivery of the rest *)
Example C29_run_example : exists c : chan nat,
  let tr := [LSend 1; LSend 2; LRecv 1; LLoad 0; LStore 0; LCloseIn 0; LTau; LRecv 2; LCloseOut]%nat in
  run newInfiniteChannel tr c /\ serial_run newInfiniteChannel tr c /\ out_closed c = true /\ panicked c = false.
Proof.
  eexists. cbv zeta.
  split; [|split; [|split]].
  - repeat (eapply run_cons; [cbn; eauto|reflexivity|]). constructor.
  - repeat (eapply serial_cons; [cbn; eauto|reflexivity|intros g g' E; try discriminate; intros [H|H]; discriminate H|discriminate|]). constructor.
  - reflexivity.
  - reflexivity.
Qed.
