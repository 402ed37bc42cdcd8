(** Proofs about the schedulers of the SQL store: the statements of the theorems. *)
From Coq Require Import String.
From Verif Require Import Base SchedModel SchedProofs SqlSchedModel SqlSchedSpec SqlSchedProofs SqlSchedProofs2 SqlSchedProofs3 SqlSchedProofs4.
Open Scope nat_scope.

Section Store.
Variable default : nat -> value.
Notation srun := (srun default).
Notation sstep := (sstep default).
Notation s0 := (store_init default).

Lemma on_on_within : forall ca cb o f, on ca o f -> on cb o f -> within ca cb.
Proof. intros ca cb o f [A1 A2] B. unfold within. rewrite A1, A2. left; auto. Qed.

Lemma on_object_within : forall ca cb o f, on ca o f -> covers_object cb o -> within ca cb.
Proof. intros ca cb o f [A1 A2] B. unfold within. rewrite A1, A2. right; auto. Qed.

Lemma write_first : forall tr s a b ca cb, srun s0 tr = Some s -> no_timeout tr -> a < b -> called s a ca -> called s b cb ->
  within ca cb -> c_write ca = true -> executing s b \/ succeeded s b -> ended s a.
Proof.
  intros tr s a b ca cb H NT L Ha Hb W Wr St.
  assert (I : sinv (fun _ => false) s) by (eapply sinv_run; eauto; [apply sinv_init|apply no_timeout_scalm; auto]).
  eapply (within_ordered default (fun _ => false)); eauto.
Qed.

Lemma conflicting : forall tr s a b ca cb, srun s0 tr = Some s -> no_timeout tr -> one_read_at_a_time default s0 tr -> a < b ->
  called s a ca -> called s b cb -> within ca cb -> c_write ca = true \/ c_write cb = true -> executing s b \/ succeeded s b -> ended s a.
Proof.
  intros tr s a b ca cb H NT OR L Ha Hb W Wr St.
  assert (I : sinv (fun _ => true) s).
  { eapply sinv_run; eauto; [apply sinv_init|apply one_read_scalm; auto; apply sinv_init]. }
  eapply (within_ordered default (fun _ => true)); eauto. destruct Wr; auto.
Qed.

Lemma isolated_no_timeout : forall tr s s', isolated_failures default s tr -> srun s tr = Some s' -> no_timeout tr.
Proof.
  induction tr as [|e tr IH]; intros s s' H R; cbn; auto. cbn [SqlSchedModel.srun] in R.
  destruct (sstep s e) as [s1|] eqn:E; [|discriminate]. unfold isolated_failures in H. cbn [along] in H. rewrite E in H. destruct H as [H1 H2].
  destruct e; auto; eapply IH; eauto.
Qed.

Lemma isolated_progress : forall tr s, srun s0 tr = Some s -> isolated_failures default s0 tr -> proper tr ->
  (forall i, sstep s (SDep i) = None) /\
  ((exists i, pending_op s i) -> exists i, executing s i \/ sstep s (SStart i) <> None).
Proof.
  intros tr s H IS PR.
  assert (C : clean s).
  { eapply (isolated_run default tr s0 s); eauto. apply sinv_init. apply clean_init. }
  split; [intros; apply clean_dep; auto|]. intros P.
  destruct (store_progress default tr s) as (i & D); auto. eapply isolated_no_timeout; eauto.
  exists i. destruct D as [D|[_ [D|D]]]; auto. rewrite (clean_dep default s i C) in D. congruence.
Qed.

Lemma get_last_set : forall o f tr s, srun s0 tr = Some s -> no_failure tr -> one_read_at_a_time default s0 tr -> only_sets o f tr ->
  (forall v, get s o f (-1)%Z = Immediately v -> v = last_set (calls s) o f (default f)) /\
  (forall i c v, In (i, v) (results s) -> called s i c -> on c o f -> v = last_set (firstn i (calls s)) o f (default f)).
Proof.
  intros o f tr s H NF OR OS.
  assert (V : vinv default o f s) by (eapply good_trace; eauto; apply vinv_init).
  split.
  - intros v G. unfold get in G. destruct (last_pending_write s o f (-1)%Z) eqn:E; inversion G; subst. eapply get_pending; eauto.
  - intros i c v Hv Hc On. eapply v_results; eauto.
Qed.

End Store.

(** ** Statements *)
Lemma base_one_write : forall tr s a b la lb oka okb, brun init tr = Some s -> a < b -> script tr a la oka -> script tr b lb okb ->
  single la -> single lb -> changes la \/ oka = false -> changes lb \/ okb = false -> bexecuting s b -> bended s a.
Proof.
  intros tr s a b la lb oka okb H L Sa Sb Na Nb Ca Cb E.
  pose proof (single_write _ _ Na Ca) as Wa. pose proof (single_write _ _ Nb Cb) as Wb.
  eapply base_ordered; eauto using write_global.
Qed.

Lemma single_writes : forall l t, single l -> writes l t -> l = [WriteStmt t].
Proof.
  intros l t S W. unfold single in S. destruct l as [|x [|y l]]; [destruct W| |cbn in S; lia]. destruct W as [->|[]]; auto.
Qed.
Lemma single_reads : forall l t, single l -> reads l t -> exists ts, l = [SelectStmt ts] /\ In t ts.
Proof.
  intros l t S (ts & R & I). unfold single in S. destruct l as [|x [|y l]]; [destruct R| |cbn in S; lia]. destruct R as [->|[]]; eauto.
Qed.

Lemma base_read_after_write : forall tr s a b la lb t, brun init tr = Some s -> a < b -> script tr a la true -> script tr b lb true ->
  single la -> single lb -> writes la t -> reads lb t -> bexecuting s b -> bended s a.
Proof.
  intros tr s a b la lb t H L Sa Sb Na Nb W R E.
  rewrite (single_writes _ _ Na W) in Sa. destruct (single_reads _ _ Nb R) as (ts & -> & I).
  eapply (base_ordered tr s a b [WriteStmt t] [SelectStmt ts] true true t); eauto; cbn; auto.
Qed.

(** a task that waits for itself never starts *)
Definition self_waiting (s : state string) (i : nat) : Prop :=
  exists t, nth_error (tasks s) i = Some t /\ (In i (t_prev t) /\ forall p, In p (t_prev t) -> p = i) /\ t_status t = Waiting /\ t_cancelled t = false.

Lemma self_waiting_step : forall s e s' i, bstep s e = Some s' -> self_waiting s i -> self_waiting s' i.
Proof.
  intros s e s' i H (t & Ht & P & St & Ca). unfold bstep in H.
  assert (Li : i < length (tasks s)) by (apply nth_error_Some; congruence).
  assert (OTHER : forall j st u, nth_error (tasks s) j = Some u -> j <> i -> self_waiting (set_status s j st) i).
  { intros j st u Hu N. unfold set_status. rewrite Hu. exists t. cbn. rewrite nth_upd by (apply nth_error_Some; congruence).
    destruct (Nat.eqb_spec i j); [congruence|auto]. }
  destruct e; cbn [bevent_of] in H.
  - destruct (newQuery l ok) as [w ts]. cbn [step] in H. destruct (register_all _ _ _ _ _ _). inversion H; subst s'. exists t. cbn.
    rewrite nth_error_app1; auto.
  - cbn [step] in H. destruct (nth_error (tasks s) i0) as [u|] eqn:Hu; [|discriminate]. destruct (t_status u) eqn:Su; try discriminate.
    destruct (Nat.eq_dec i0 i) as [->|N].
    + rewrite Ht in Hu. inversion Hu; subst u. exfalso. rewrite Ca in H. cbn in H.
      destruct (forallb (is_resolved (tasks s)) (t_prev t)) eqn:F; [|discriminate]. rewrite forallb_forall in F.
      specialize (F i (proj1 P)). unfold is_resolved in F. rewrite Ht, St in F. discriminate.
    + destruct (_ || _); inversion H. eapply OTHER; eauto.
  - cbn [step] in H. destruct (nth_error (tasks s) i0) as [u|] eqn:Hu; [|discriminate]. destruct (t_status u) eqn:Su; try discriminate.
    destruct (unregister_all _ _ _ _) as [r okr]. inversion H; subst s'. assert (N : i0 <> i) by congruence.
    destruct (OTHER i0 (if okr then Resolved else Rejected) u Hu N) as (t' & A & B). exists t'; cbn; auto.
  - cbn [step] in H. destruct (nth_error (tasks s) i0) as [u|] eqn:Hu; [|discriminate]. destruct (t_status u) eqn:Su; try discriminate.
    inversion H. eapply OTHER; eauto. congruence.
  - cbn [step] in H. destruct (nth_error (tasks s) i0) as [u|] eqn:Hu; [|discriminate]. destruct (t_status u) eqn:Su; try discriminate.
    destruct (Nat.eq_dec i0 i) as [->|N].
    + rewrite Ht in Hu. inversion Hu; subst u. exfalso.
      destruct (existsb (is_rejected (tasks s)) (t_prev t)) eqn:F; [|discriminate]. apply existsb_exists in F. destruct F as (p & Ip & F).
      rewrite (proj2 P p Ip) in F. unfold is_rejected in F. rewrite Ht, St in F. discriminate.
    + destruct (existsb _ _); inversion H. eapply OTHER; eauto.
Qed.
Lemma self_waiting_run : forall tr s s' i, brun s tr = Some s' -> self_waiting s i -> self_waiting s' i.
Proof.
  induction tr as [|e tr IH]; intros s s' i H W; cbn in H; [inversion H; subst; auto|].
  destruct (bstep s e) as [s1|] eqn:E; [|discriminate]. eapply IH; eauto. eapply self_waiting_step; eauto.
Qed.

Local Opaque string_dec.
Lemma self_wait_blocks : forall t tr' s', brun init (BCall [WriteStmt t; WriteStmt t] true :: tr') = Some s' ->
  ~ bexecuting s' 0 /\ ~ bended s' 0 /\
  forall b lb okb, 0 < b -> script (BCall [WriteStmt t; WriteStmt t] true :: tr') b lb okb -> single lb -> changes lb \/ okb = false ->
    ~ bexecuting s' b.
Proof.
  intros t tr' s' H.
  assert (W : self_waiting s' 0).
  { cbn [brun] in H. destruct (bstep init (BCall [WriteStmt t; WriteStmt t] true)) as [s1|] eqn:E; [|discriminate].
    eapply self_waiting_run; [exact H|]. unfold bstep in E. cbn [bevent_of newQuery scan app step init tasks reg List.length register_all register1 look put previous last_task] in E.
    destruct (string_dec t t) as [_|N]; [|congruence]. cbn in E.
    destruct (string_dec "" t) as [Et|Nt]; cbn in E; inversion E; subst s1; eexists; (split; [reflexivity|]); cbn;
      (split; [split; [auto|intros p Hp; cbn in Hp; intuition]|auto]). }
  assert (NE : ~ bended s' 0).
  { destruct W as (u & Hu & _ & Su & _). unfold bended. rewrite Hu. cbn. rewrite Su. intros [X|X]; discriminate. }
  split; [|split; auto].
  - destruct W as (u & Hu & _ & Su & _). unfold bexecuting. rewrite Hu. cbn. rewrite Su. discriminate.
  - intros b lb okb L Sb Nb Cb X. apply NE.
    eapply (base_ordered _ s' 0 b _ lb true okb ""%string H L); [reflexivity|exact Sb|reflexivity|cbn; auto| |exact X].
    apply write_global. apply single_write; auto.
Qed.
