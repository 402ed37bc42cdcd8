(** Concrete runs with an adapter, for the examples and witnesses of [AdapterTheorems]. *)
From Verif Require Import Base ListModel ListSpec GraphModel GraphSpec AdapterModel AdapterSpec GraphRun.

Fixpoint arun (M : metamodel) (fuel : nat) (s : state) (A : flags) (ps : list gop) : option (state * flags) :=
  match ps with
  | [] => Some (s, A)
  | p :: ps' => match astep M (fun _ => false) fuel s A p with Some (s', A') => arun M fuel s' A' ps' | None => None end
  end.
Fixpoint alongA (M : metamodel) (fuel : nat) (s : state) (A : flags) (ps : list gop) : Prop :=
  match ps with
  | [] => True
  | p :: ps' => (legal M s p /\ safe_call M s p /\ calm s p)
      /\ match astep M (fun _ => false) fuel s A p with Some (s', A') => alongA M fuel s' A' ps' | None => False end
  end.
Lemma along_followed M fuel o ps : forall s A, followed M (fun _ => false) o s A -> alongA M fuel s A ps ->
  exists s' A', arun M fuel s A ps = Some (s', A') /\ followed M (fun _ => false) o s' A'.
Proof.
  induction ps as [|p ps IH]; intros s A H Ha; cbn [arun alongA] in *; [eauto|].
  destruct Ha as [(H1 & H2 & H3) Ha]. destruct (astep M (fun _ => false) fuel s A p) as [[s1 A1]|] eqn:E; [|contradiction].
  apply IH; [|assumption]. econstructor; eassumption.
Qed.

(** build a model, put the adapter on o, edit *)
Lemma followed_run M o fuel ps qs (Q : state -> flags -> Prop) :
  along M (fun s p => legal M s p /\ safe_call M s p) init ps ->
  match grun M init ps with
  | Some s => match addAdapter M s fuel (fun _ => false) (NObj o) with
              | Some A => alongA M fuel s A qs /\ match arun M fuel s A qs with Some (s', A') => Q s' A' | None => False end
              | None => False
              end
  | None => False
  end -> exists s A, followed M (fun _ => false) o s A /\ Q s A.
Proof.
  intros H. destruct (along_reachable_safe M ps init (reach_safe_init M) H) as (s & -> & Hs).
  destruct (addAdapter M s fuel (fun _ => false) (NObj o)) as [A|] eqn:EA; [|tauto]. intros [Ha Hq].
  destruct (along_followed M fuel o qs s A) as (s' & A' & E & F); [econstructor; eassumption|assumption|].
  rewrite E in Hq. eauto.
Qed.
(** the same with several roots, and no call *)
Fixpoint attachAll (M : metamodel) (fuel : nat) (s : state) (A : flags) (ns : list notifier) : option flags :=
  match ns with
  | [] => Some A
  | n :: ns' => if A n then None else match addAdapter M s fuel A n with Some A' => attachAll M fuel s A' ns' | None => None end
  end.
Fixpoint rootsOf (ns : list notifier) (roots : notifier -> Prop) : notifier -> Prop :=
  match ns with [] => roots | n :: ns' => rootsOf ns' (fun m => m = n \/ roots m) end.
Lemma attachAll_watched M others fuel ns : forall s A roots A', watched M others s A roots -> attachAll M fuel s A ns = Some A' ->
  watched M others s A' (rootsOf ns roots).
Proof.
  induction ns as [|n ns IH]; intros s A roots A' H E; cbn in *; [now injection E as <-|].
  destruct (A n) eqn:En; [discriminate|]. destruct (addAdapter M s fuel A n) as [A1|] eqn:E1; [|discriminate].
  apply (IH s A1); [|assumption]. econstructor; eassumption.
Qed.
Lemma watched_run M ns fuel ps (Q : state -> flags -> Prop) :
  along M (fun s p => legal M s p /\ safe_call M s p) init ps ->
  match grun M init ps with
  | Some s => match attachAll M fuel s (fun _ => false) ns with Some A => Q s A | None => False end
  | None => False
  end -> exists s A, watched M (fun _ => false) s A (rootsOf ns (fun _ => False)) /\ Q s A.
Proof.
  intros H. destruct (along_reachable_safe M ps init (reach_safe_init M) H) as (s & -> & Hs).
  destruct (attachAll M fuel s (fun _ => false) ns) as [A|] eqn:EA; [|tauto]. intro Hq. exists s, A. split; [|assumption].
  apply (attachAll_watched M _ fuel ns s (fun _ => false)); [now constructor|assumption].
Qed.
(** one more call *)
Definition call M (s : state) (A : flags) (p : gop) (Q : state -> flags -> Prop) : Prop :=
  match astep M (fun _ => false) 9 s A p with Some (s', A') => Q s' A' | None => False end.
Lemma call_some M s A p Q : call M s A p Q -> exists s' A', astep M (fun _ => false) 9 s A p = Some (s', A') /\ Q s' A'.
Proof. unfold call. destruct (astep M (fun _ => false) 9 s A p) as [[s' A']|]; [eauto|tauto]. Qed.

(** decides that nothing forbidden is above, on concrete states *)
Ltac not_above := repeat match goal with
  | H : container _ _ = Some _ |- _ => vm_compute in H; first [discriminate H|injection H as H; subst]
  | H : above _ _ _ |- _ => inversion H; clear H; subst
  end; try congruence.
Ltac arun_ok := run_ok; try solve [not_above].
