(** C40 (a content adapter on an object is an adapter of exactly what the object contains), C92 (several
    roots, resources, adapters taken off) and C93 (the work of the adapter ends). *)
From Verif Require Import Base ListModel ListSpec GraphModel GraphSpec AdapterModel AdapterSpec GraphInv GraphSteps GraphAcyclic AdapterSteps GraphRun AdapterRun.

(** ** C40: bulk additions only add free objects, see [calm] *)
Theorem C40_content_adapter_partial : forall M others o s A, wf_metamodel M -> followed M others o s A ->
  forall n, A n = true <-> n = NObj o \/ exists x, n = NObj x /\ above s o x.
Proof.
  intros M others o s A W H n. rewrite <- covered_one. now apply (followed_exact M W others o s A H).
Qed.
Print Assumptions C40_content_adapter_partial.

(** an object keeps an adapter when it leaves the tree with its container in one call *)
Theorem C40_bulk_addition_refuted : exists M o s A p s' A' x, wf_metamodel M /\ followed M (fun _ => false) o s A /\
  legal M s p /\ safe_call M s p /\ astep M (fun _ => false) 9 s A p = Some (s', A') /\
  A' (NObj x) = true /\ x <> o /\ ~ above s' o x.
Proof.
  set (p := OList 9 children (AddAll (Ext [1%nat; 2%nat]))).
  destruct (followed_run nodes 0 9 [OSet 2 parent (Some 1%nat); OSet 1 parent (Some 0%nat)] []
    (fun s A => legal nodes s p /\ safe_call nodes s p /\ call nodes s A p (fun s' A' => A' (NObj 2) = true /\ container s' 2 = Some 9%nat /\ container s' 9 = None)))
    as (s & A & F & Hl & Hs & Hc).
  { arun_ok. }
  { arun_ok. }
  apply call_some in Hc as (s' & A' & E & H1 & H2 & H3).
  exists nodes, 0%nat, s, A, p, s', A', 2%nat. split; [exact nodes_wf|]. split; [assumption|]. split; [assumption|]. split; [assumption|].
  split; [assumption|]. split; [assumption|]. split; [discriminate|].
  intro Ha. inversion Ha as [? ? Hb|? ? ? Hb Hd]; subst; [congruence|]. rewrite H2 in Hb. injection Hb as <-. inversion Hd; subst; congruence.
Qed.
Print Assumptions C40_bulk_addition_refuted.

(** Set in the contents of a resource takes the adapter off an object still contained in the tree *)
Theorem C40_contents_set_refuted : exists M s A p s' A' c x, wf_metamodel M /\
  watched M (fun _ => false) s A (fun m => m = NRes 0 \/ False) /\
  legal M s p /\ astep M (fun _ => false) 9 s A p = Some (s', A') /\
  In c (contents s' 0) /\ A' (NObj c) = true /\ container s' x = Some c /\ A' (NObj x) = false.
Proof.
  set (p := OContents 0 (SetAt 1 3%nat)).
  destruct (watched_run nodes [NRes 0] 9 [OContents 0 (Add 1%nat); OSet 2 parent (Some 1%nat); OContents 0 (Add 2%nat)]
    (fun s A => legal nodes s p /\ call nodes s A p (fun s' A' => In 1%nat (contents s' 0) /\ A' (NObj 1) = true /\ container s' 2 = Some 1%nat /\ A' (NObj 2) = false)))
    as (s & A & F & Hl & Hc).
  { arun_ok. }
  { arun_ok. }
  apply call_some in Hc as (s' & A' & E & H).
  exists nodes, s, A, p, s', A', 1%nat, 2%nat. split; [exact nodes_wf|]. tauto.
Qed.
Print Assumptions C40_contents_set_refuted.

(** the adapter put on an object is taken off it when the object leaves a container that carries it too *)
Theorem C40_nested_root_refuted : exists M s A p s' A' x (roots : notifier -> Prop), wf_metamodel M /\
  watched M (fun _ => false) s A roots /\
  legal M s p /\ safe_call M s p /\ calm s p /\ astep M (fun _ => false) 9 s A p = Some (s', A') /\
  roots (NObj x) /\ A' (NObj x) = false.
Proof.
  set (p := OSet 1 parent None).
  destruct (watched_run nodes [NObj 1; NObj 0] 9 [OSet 1 parent (Some 0%nat)]
    (fun s A => legal nodes s p /\ call nodes s A p (fun s' A' => A' (NObj 1) = false)))
    as (s & A & F & Hl & Hc).
  { arun_ok. }
  { arun_ok. }
  apply call_some in Hc as (s' & A' & E & H).
  exists nodes, s, A, p, s', A', 1%nat, (rootsOf [NObj 1; NObj 0] (fun _ => False)). split; [exact nodes_wf|].
  split; [assumption|]. split; [assumption|]. split; [exact Logic.I|]. split; [exact Logic.I|]. split; [assumption|].
  split; [|assumption]. cbn. auto.
Qed.
Print Assumptions C40_nested_root_refuted.

Example C40_example : exists s A, followed nodes (fun _ => false) 0 s A /\
  container s 4 = Some 3%nat /\ A (NObj 0) = true /\ A (NObj 1) = true /\ A (NObj 3) = true /\ A (NObj 4) = true /\ A (NObj 2) = false /\ A (NObj 5) = false.
Proof.
  apply (followed_run nodes 0 9 [OSet 2 parent (Some 1%nat); OSet 5 parent (Some 2%nat); OSet 4 parent (Some 3%nat)]
     [OList 0 children (AddAll (Ext [1%nat; 6%nat])); OList 6 parts (Add 3%nat); OSet 2 parent (Some 9%nat)]); arun_ok.
Qed.

(** ** C92: objects and resources, put on and off.  No root is inside something that carries the adapter
    when a call is made, see [outermost]. *)
Theorem C92_content_adapter_history : forall M others s A roots, wf_metamodel M -> watched M others s A roots -> exact s roots A.
Proof. intros M others s A roots W H. exact (proj2 (watched_exact M W others s A roots H)). Qed.
Print Assumptions C92_content_adapter_history.

(** nothing is left when it is taken off the last root *)
Theorem C92_taken_off : forall M others s A n fuel A', wf_metamodel M -> watched M others s A (fun m => m = n) ->
  (forall x p, n = NObj x -> edge s p x -> A p = false) ->
  removeAdapter M s fuel A n = Some A' -> forall m, A' m = false.
Proof.
  intros M others s A n fuel A' W H Hout E m. destruct (A' m) eqn:Em; [|reflexivity]. exfalso.
  assert (H' : watched M others s A' (fun m => m <> n /\ m = n)).
  { econstructor; [exact H|reflexivity| |exact E]. intros x p Hx. now apply Hout. }
  apply (C92_content_adapter_history M others s A' _ W H') in Em. clear - Em. induction Em as [? [? ?]|]; auto.
Qed.
Print Assumptions C92_taken_off.

Example C92_example : exists s A, watched nodes (fun _ => false) s A (rootsOf [NRes 0; NObj 7] (fun _ => False)) /\
  A (NRes 0) = true /\ A (NRes 1) = false /\ A (NObj 1) = true /\ A (NObj 2) = true /\ A (NObj 3) = false /\ A (NObj 7) = true /\ A (NObj 8) = true.
Proof.
  apply (watched_run nodes [NRes 0; NObj 7] 9 [OContents 0 (Add 1%nat); OSet 2 parent (Some 1%nat); OContents 1 (Add 3%nat); OSet 8 parent (Some 7%nat)]); arun_ok.
Qed.

(** ** C93: the walks end *)
Theorem C93_call_ends : forall M others s A roots p s', wf_metamodel M -> watched M others s A roots ->
  legal M s p -> safe_call M s p -> calm s p -> outermost s roots A -> gstep M s p = Some s' ->
  exists k, forall fuel, (k <= fuel)%nat -> exists A', astep M others fuel s A p = Some (s', A').
Proof.
  intros M others s A roots p s' W H Hl Hs Hc Ho E. destruct (watched_exact M W others s A roots H) as [Hr Hx].
  destruct (astep_sound M W others s A roots p s' Hr Hx Ho Hl Hs Hc E) as (_ & k & Hk). exists k. intros fuel Hf.
  destruct (Hk fuel Hf) as (A' & HA & _). eauto.
Qed.
Print Assumptions C93_call_ends.
Theorem C93_attach_ends : forall M s A n, wf_metamodel M -> reachable M s ->
  exists k, forall fuel, (k <= fuel)%nat -> exists A', addAdapter M s fuel A n = Some A'.
Proof. intros M s A n W. exact (attach_progress M W (fun _ => false) s A n). Qed.
Print Assumptions C93_attach_ends.
Theorem C93_detach_ends : forall M s A n, wf_metamodel M -> reachable M s ->
  exists k, forall fuel, (k <= fuel)%nat -> exists A', removeAdapter M s fuel A n = Some A'.
Proof. intros M s A n W. exact (detach_progress M W (fun _ => false) s A n). Qed.
Print Assumptions C93_detach_ends.
