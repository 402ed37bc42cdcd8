(** Proofs about the schedulers of the SQL store: failures, deadlocks, values. *)
From Coq Require Import String FinFun.
From Verif Require Import Base SchedModel SchedProofs SqlSchedModel SqlSchedSpec SqlSchedProofs SqlSchedProofs2.
Open Scope nat_scope.

(** ** Keys without repetition *)
Lemma nodup_app_intro : forall {A} (l1 l2 : list A), NoDup l1 -> NoDup l2 -> (forall x, In x l1 -> ~ In x l2) -> NoDup (l1 ++ l2).
Proof.
  intros A l1; induction l1 as [|x l1 IH]; intros l2 N1 N2 D; cbn; auto. inversion N1; subst. constructor.
  - rewrite in_app_iff. intros [?|?]; [auto|]. apply (D x); cbn; auto.
  - apply IH; auto. intros y Hy. apply D; cbn; auto.
Qed.
Lemma nodup_features : forall r o, keys_nodup r -> NoDup (features_of r o).
Proof. intros. apply NoDup_filter. auto. Qed.
Lemma features_obj : forall r o k, In k (features_of r o) -> fst k = Some o /\ snd k <> None.
Proof.
  intros r o [[a|] [b|]] H; unfold features_of in H; apply filter_In in H; destruct H as [_ H]; unfold is_obj in H; cbn in H; try discriminate.
  - rewrite andb_true_r in H. apply Nat.eqb_eq in H. subst. split; auto; discriminate.
  - rewrite andb_false_r in H. discriminate.
Qed.
Lemma nodup_object : forall r o, keys_nodup r -> NoDup ((Some o, None) :: features_of r o).
Proof.
  intros. constructor; [|apply nodup_features; auto]. intro H1; apply features_obj in H1. destruct H1; auto.
Qed.
Lemma nodup_objectFeatures : forall r lof, keys_nodup r -> NoDup (objectFeatures r lof).
Proof.
  intros r [[o|] [f|]] ND; cbn [objectFeatures].
  - constructor; auto; constructor.
  - apply nodup_object; auto.
  - constructor.
    + intro H. apply in_flat_map in H. destruct H as (o & _ & [H|H]); [discriminate|]. apply features_obj in H. destruct H; discriminate.
    + assert (N : NoDup (objects_of r)) by apply NoDup_nodup. induction N; cbn [flat_map]; [constructor|].
      apply nodup_app_intro; auto.
      * apply nodup_object; auto.
      * intros k Hk H1. apply in_flat_map in H1. destruct H1 as (o & Ho & H1). apply H.
        assert (fst k = Some x) by (destruct Hk as [<-|Hk]; auto; apply features_obj in Hk; tauto).
        assert (fst k = Some o) by (destruct H1 as [<-|H1]; auto; apply features_obj in H1; tauto).
        congruence.
  - constructor.
    + intro H. apply in_flat_map in H. destruct H as (o & _ & [H|H]); [discriminate|]. apply features_obj in H. destruct H; discriminate.
    + assert (N : NoDup (objects_of r)) by apply NoDup_nodup. induction N; cbn [flat_map]; [constructor|].
      apply nodup_app_intro; auto.
      * apply nodup_object; auto.
      * intros k Hk H1. apply in_flat_map in H1. destruct H1 as (o & Ho & H1). apply H.
        assert (fst k = Some x) by (destruct Hk as [<-|Hk]; auto; apply features_obj in Hk; tauto).
        assert (fst k = Some o) by (destruct H1 as [<-|H1]; auto; apply features_obj in H1; tauto).
        congruence.
Qed.

Lemma objectFeatures_obj : forall r o f k, In k (objectFeatures r (Some o, f)) -> fst k = Some o.
Proof.
  intros r o [f|] k H; cbn in H.
  - destruct H as [<-|[]]; auto.
  - destruct H as [<-|H]; auto. apply features_obj in H; tauto.
Qed.

Lemma nodup_registered : forall wr w i lofs r, keys_nodup r -> NoDup (map fst lofs) -> (forall l, In l lofs -> fst l <> None) ->
  NoDup (registered wr w i r lofs) /\ forall k, In k (registered wr w i r lofs) -> In (fst k) (map fst lofs).
Proof.
  intros wr w i lofs; induction lofs as [|[[o|] f] lofs IH]; intros r ND N S; cbn [registered].
  - split; [constructor|intros k []].
  - inversion N; subst.
    destruct (register_all key_dec wr w i r (objectFeatures r (Some o, f))) as [r1 ps] eqn:E.
    destruct (register_all_keys key_dec _ _ _ _ _ _ _ ND E) as [ND1 _].
    destruct (IH r1 ND1 H2) as [A B]; [intros; apply S; cbn; auto|]. cbn [fst]. split.
    + apply nodup_app_intro; auto.
      * apply nodup_objectFeatures; auto.
      * intros k Hk H. apply B in H. apply objectFeatures_obj in Hk. rewrite Hk in H. cbn in H1. auto.
    + intros k Hk. apply in_app_iff in Hk. cbn. destruct Hk as [Hk|Hk]; auto. apply objectFeatures_obj in Hk. auto.
  - exfalso. apply (S (None, f)); cbn; auto.
Qed.

Lemma proper_nodup : forall wr w i r cl, keys_nodup r -> proper_call cl -> NoDup (registered wr w i r (allObjectFeatures cl)).
Proof.
  intros wr w i r cl ND (P1 & P2 & P3). destruct (c_object cl) as [o|] eqn:O.
  - apply nodup_registered; auto; unfold allObjectFeatures; rewrite O.
    + cbn [map fst]. constructor.
      * rewrite map_app, in_app_iff. intros [H|H].
        -- rewrite map_map in H. cbn in H. apply in_map_iff in H. destruct H as (x & E & H). inversion E; subst. apply (P2 o); auto.
        -- destruct (c_value cl) eqn:V; try destruct H. destruct (Nat.eqb_spec o0 o); [destruct H|]. cbn in H. destruct H as [H|[]]. inversion H; auto.
      * rewrite map_app, map_map. cbn. apply nodup_app_intro.
        -- apply Injective_map_NoDup; auto. intros a b E; inversion E; auto.
        -- destruct (c_value cl); try constructor. destruct (Nat.eqb o0 o); cbn; constructor; auto; constructor.
        -- intros x Hx Hy. apply in_map_iff in Hx. destruct Hx as (y & <- & Hy').
           destruct (c_value cl) eqn:V; try destruct Hy. destruct (Nat.eqb o0 o); cbn in Hy; [destruct Hy|].
           destruct Hy as [E|[]]. inversion E; subst. destruct (P3 y eq_refl). auto.
    + intros l [<-|H]; cbn; [discriminate|]. apply in_app_iff in H. destruct H as [H|H].
      * apply in_map_iff in H. destruct H as (x & <- & _). discriminate.
      * destruct (c_value cl); try destruct H. destruct (Nat.eqb o0 o); [destruct H|]. destruct H as [<-|[]]. discriminate.
  - unfold allObjectFeatures. rewrite O. destruct (c_value cl) eqn:V; cbn [app registered]; rewrite ?app_nil_r;
      try (apply nodup_objectFeatures; auto). destruct (P3 o eq_refl) as [E _]. congruence.
Qed.

Section Store.
Variable default : nat -> value.
Notation sstep := (sstep default).
Notation srun := (srun default).
Notation sinv := (sinv (fun _ => false)).

(** the scheduler event behind an event of the store *)
Definition inner (s : store) (e : sevent) : option (event key) :=
  match e with
  | SCall c => Some (sched_event s c)
  | SStart i => Some (EStart i) | SEffect _ => None | SDone i => Some (EDone i) | SErr i => Some (EErr i)
  | SPanic i => Some (EFail i) | SDep i => Some (EDep i) | STimeout i => Some (ECancel i)
  end.
Lemma inner_step : forall s e s', sstep s e = Some s' ->
  match inner s e with
  | Some e' => step key_dec (sch s) e' = Some (sch s')
  | None => sch s' = sch s
  end.
Proof.
  intros s e s' H. destruct e; cbn [SqlSchedModel.sstep inner] in *.
  - destruct (step key_dec (sch s) (sched_event s c)) eqn:E; inversion H; auto.
  - apply with_sch_some in H. destruct H as (y & H & ->). auto.
  - destruct (status_of s i) as [[]|]; try discriminate. destruct (nth_error (calls s) i) as [ci|]; [|discriminate].
    destruct (has i (executed s)); [discriminate|]. inversion H; subst s'. unfold effect. destruct (c_object ci), (c_feature ci), (c_cmd ci); auto.
  - destruct (has i (executed s)); [|discriminate]. apply with_sch_some in H. destruct H as (y & H & ->). auto.
  - apply with_sch_some in H. destruct H as (y & H & ->). auto.
  - apply with_sch_some in H. destruct H as (y & H & ->). auto.
  - apply with_sch_some in H. destruct H as (y & H & ->). auto.
  - apply with_sch_some in H. destruct H as (y & H & ->). auto.
Qed.

(** ** Deadlocks *)
Lemma prev_lt_run : forall tr s s', sinv s -> prev_lt (sch s) -> no_timeout tr -> proper tr -> srun s tr = Some s' -> prev_lt (sch s').
Proof.
  induction tr as [|e tr IH]; intros s s' I P NT PR H; cbn [SqlSchedModel.srun] in H.
  - inversion H; subst; auto.
  - destruct (sstep s e) as [s1|] eqn:E; [|discriminate].
    pose proof (no_timeout_scalm default (e :: tr) s NT) as C. unfold scalm in C. cbn [along] in C. rewrite E in C. destruct C as [C1 C2].
    eapply (IH s1); eauto.
    + eapply sinv_step; eauto.
    + pose proof (inner_step _ _ _ E) as S. destruct (inner s e) as [e'|] eqn:En; [|rewrite S; auto].
      eapply prev_lt_step; [apply (s_inv _ _ I)|exact P|exact S|].
      intros w ks ->. destruct e; cbn in En; try discriminate. unfold sched_event in En. inversion En; subst.
      apply proper_nodup; [apply (inv_nodup key_dec _ _ (s_inv _ _ I))|]. apply PR; cbn; auto.
    + destruct e; cbn in NT; auto; destruct NT.
    + intros cl Hc. apply PR; cbn; auto.
Qed.

Lemma pending_task : forall s i, pending_op s i <-> exists t, nth_error (tasks (sch s)) i = Some t /\ ~ settled t.
Proof.
  intros s i. unfold pending_op, executing. rewrite !status_task. split.
  - intros [(t & H & E)|(t & H & E)]; exists t; split; auto; intros [X|X]; congruence.
  - intros (t & H & U). destruct (t_status t) eqn:E; eauto; exfalso; apply U; [left|right]; auto.
Qed.

Lemma store_progress : forall tr s, no_timeout tr -> proper tr -> srun (store_init default) tr = Some s ->
  (exists i, pending_op s i) ->
  exists i, executing s i \/ (pending_op s i /\ (sstep s (SStart i) <> None \/ sstep s (SDep i) <> None)).
Proof.
  intros tr s NT PR H (i & Hi). apply pending_task in Hi.
  assert (P : prev_lt (sch s)).
  { eapply prev_lt_run; eauto. apply sinv_init. intros [|j] t p Hj; discriminate. }
  destruct (progress key_dec (sch s) P) as (j & t & Hj & Uj & D); eauto.
  exists j. destruct D as [D|D].
  - left. apply status_task. eauto.
  - right. split; [apply pending_task; eauto|]. cbn [SqlSchedModel.sstep].
    destruct D as [D|D]; [left|right]; destruct (step key_dec (sch s) _); cbn; congruence.
Qed.

(** ** Failures *)
(** no settled task is registered, no waiting task depends on a rejected one *)
Record clean (s : store) : Prop := {
  cl_reg : forall k i t, In i (klook (reg (sch s)) k) -> nth_error (tasks (sch s)) i = Some t -> ~ settled t;
  cl_prev : forall i t p, nth_error (tasks (sch s)) i = Some t -> t_status t = Waiting -> In p (t_prev t) -> is_rejected (tasks (sch s)) p = false }.

Lemma clean_dep : forall s i, clean s -> sstep s (SDep i) = None.
Proof.
  intros s i C. cbn [SqlSchedModel.sstep step]. destruct (nth_error (tasks (sch s)) i) as [t|] eqn:Ht; auto.
  destruct (t_status t) eqn:St; auto. destruct (existsb (is_rejected (tasks (sch s))) (t_prev t)) eqn:E; auto.
  apply existsb_exists in E. destruct E as (p & Ip & R). rewrite (cl_prev s C _ _ _ Ht St Ip) in R. discriminate.
Qed.

Lemma clean_status : forall s i t st r, clean s -> nth_error (tasks (sch s)) i = Some t -> ~ settled t ->
  (forall k, shrinks i (klook (reg (sch s)) k) (klook r k)) ->
  (st = Running /\ r = reg (sch s) \/ (st = Resolved \/ st = Rejected /\ forall j, j <> i -> ~ pending_op s j) /\ forall k, ~ In i (klook r k)) ->
  clean (mkStore (mkS (tasks (set_status (sch s) i st)) r) (calls s) (cells s) (results s) (executed s)).
Proof.
  intros s i t st r C Ht U SH D. unfold set_status. rewrite Ht. cbn [tasks].
  assert (Li : i < length (tasks (sch s))) by (apply nth_error_Some; congruence).
  constructor; cbn [sch reg tasks].
  - intros k j u Hj Hu. destruct (SH k) as (_ & S2 & _). rewrite nth_upd in Hu by auto.
    destruct (Nat.eqb_spec j i) as [->|N]; [|eapply cl_reg; eauto]. inversion Hu; subst u.
    destruct D as [[-> _]|[_ D]]; [intros [X|X]; discriminate|]. exfalso; eapply D; eauto.
  - intros j u p Hj Sj Ip. rewrite nth_upd in Hj by auto. destruct (Nat.eqb_spec j i) as [->|N].
    + inversion Hj; subst u. cbn in Sj, Ip. destruct D as [[-> _]|[[->|[-> _]] _]]; discriminate.
    + unfold is_rejected. rewrite nth_upd by auto. destruct (Nat.eqb_spec p i) as [->|Np]; [|exact (cl_prev s C _ _ _ Hj Sj Ip)].
      cbn. destruct D as [[-> _]|[[->|[-> D]] _]]; auto. exfalso. apply (D j N). apply pending_task. exists u; split; auto.
      intros [X|X]; congruence.
Qed.

Definition isolated_event (s : store) (e : sevent) : Prop :=
  match e with SErr i => forall j, j <> i -> ~ pending_op s j | SPanic _ | STimeout _ => False | _ => True end.

Lemma clean_step : forall c s e s', SqlSchedProofs2.sinv c s -> scalm_event c s e -> isolated_event s e -> clean s -> sstep s e = Some s' -> clean s'.
Proof.
  intros c s e s' I Ca IE C H. pose proof (inner_step _ _ _ H) as S.
  assert (U1 : forall t : task key, t_status t = Waiting -> ~ settled t) by (intros t E [X|X]; congruence).
  assert (U2 : forall t : task key, t_status t = Running -> ~ settled t) by (intros t E [X|X]; congruence).
  destruct e; cbn [inner] in S.
  - assert (EQ : sch s' = sch s' ) by auto. unfold sched_event in S. cbn [step] in S.
    set (ks := registered _ _ _ _ _) in S.
    destruct (register_all key_dec (wr_of (tasks (sch s)) (c_write c0)) (c_write c0) (length (tasks (sch s))) (reg (sch s)) ks) as [r ps] eqn:E.
    inversion S as [S']. clear S.
    destruct (register_all_keys key_dec _ _ _ _ _ _ _ (inv_nodup key_dec _ _ (s_inv _ _ I)) E) as [_ L].
    constructor; rewrite <- S'; cbn [tasks reg].
    + intros k i t Hi Ht. rewrite L in Hi. apply in_app_iff in Hi. destruct Hi as [Hi|Hi].
      * destruct (inv_reg key_dec _ _ (s_inv _ _ I) _ _ Hi) as (t0 & Ht0 & _).
        rewrite nth_error_app1 in Ht by (apply nth_error_Some; congruence). eapply cl_reg; eauto.
      * apply repeat_spec in Hi. subst i. rewrite nth_error_app2, Nat.sub_diag in Ht by lia. inversion Ht. apply U1; auto.
    + intros i t p Hi St Ip. unfold is_rejected. destruct (Nat.lt_ge_cases i (length (tasks (sch s)))) as [Li|Li].
      * rewrite nth_error_app1 in Hi by auto. pose proof (cl_prev s C _ _ _ Hi St Ip) as R. unfold is_rejected in R.
        destruct (Nat.lt_ge_cases p (length (tasks (sch s)))) as [Lp|Lp]; [rewrite nth_error_app1; auto|].
        rewrite nth_error_app2 by auto. destruct (p - _) as [|[|n]]; auto.
      * rewrite nth_error_app2 in Hi by auto. destruct (i - _) as [|[|n]] eqn:Ei; try discriminate. cbn in Hi. inversion Hi; subst t. cbn in Ip.
        destruct (register_all_prev key_dec _ _ _ _ _ _ _ _ (inv_nodup key_dec _ _ (s_inv _ _ I)) E Ip) as [->|(k & _ & Hk)].
        -- rewrite nth_error_app2, Nat.sub_diag by lia. auto.
        -- destruct (inv_reg key_dec _ _ (s_inv _ _ I) _ _ Hk) as (t0 & Ht0 & _).
           rewrite nth_error_app1 by (apply nth_error_Some; congruence). rewrite Ht0.
           pose proof (cl_reg s C _ _ _ Hk Ht0) as U. destruct (t_status t0) eqn:E0; auto. exfalso; apply U; right; auto.
  - cbn [SqlSchedModel.sstep] in H. apply with_sch_some in H. destruct H as (y & H & ->). cbn [step] in H.
    destruct (nth_error (tasks (sch s)) i) as [t|] eqn:Ht; [|discriminate]. destruct (t_status t) eqn:St; try discriminate.
    destruct (_ || _); inversion H; subst y. rewrite <- (mkS_eta (set_status (sch s) i Running)), reg_set_status.
    eapply clean_status; eauto. intros; apply shrinks_refl.
  - destruct C as [C1 C2]. constructor; rewrite S; auto.
  - cbn [SqlSchedModel.sstep] in H. destruct (has i (executed s)); [|discriminate].
    apply with_sch_some in H. destruct H as (y & H & ->).
    pose proof (end_unregisters key_dec c _ _ i _ (s_inv _ _ I) (or_introl eq_refl) H) as NI.
    cbn [step] in H.
    destruct (nth_error (tasks (sch s)) i) as [t|] eqn:Ht; [|discriminate]. destruct (t_status t) eqn:St; try discriminate.
    pose proof (done_resolves key_dec c _ _ _ _ (s_inv _ _ I) Ht S) as DR.
    destruct (unregister_all key_dec i (reg (sch s)) (t_keys t)) as [r ok] eqn:E. 
    destruct (unregister_all_shrinks key_dec _ _ _ _ _ (inv_nodup key_dec _ _ (s_inv _ _ I)) E) as [_ SH].
    inversion H; subst y. cbn [sch tasks reg] in *. rewrite DR.
    eapply clean_status; eauto.
  - cbn [SqlSchedModel.sstep] in H. apply with_sch_some in H. destruct H as (y & H & ->).
    pose proof (end_unregisters key_dec c _ _ i _ (s_inv _ _ I) (or_intror eq_refl) H) as NI.
    cbn [step] in H.
    destruct (nth_error (tasks (sch s)) i) as [t|] eqn:Ht; [|discriminate]. destruct (t_status t) eqn:St; try discriminate.
    destruct (unregister_all key_dec i (reg (sch s)) (t_keys t)) as [r ok] eqn:E. 
    destruct (unregister_all_shrinks key_dec _ _ _ _ _ (inv_nodup key_dec _ _ (s_inv _ _ I)) E) as [_ SH].
    inversion H; subst y. cbn [reg] in NI.
    eapply clean_status; eauto.
  - destruct IE.
  - rewrite (clean_dep s i C) in H. discriminate.
  - destruct IE.
Qed.

Lemma clean_init : clean (store_init default).
Proof. constructor; cbn; [intros k i t []|]. intros [|i] t p H; discriminate. Qed.

Lemma isolated_event_calm : forall s e, isolated_event s e -> scalm_event (fun _ => false) s e.
Proof. intros s e H. destruct e; cbn in *; auto. destruct (c_write c); cbn; auto. intros; discriminate. Qed.

Lemma isolated_run : forall tr s s', sinv s -> clean s -> isolated_failures default s tr -> srun s tr = Some s' -> sinv s' /\ clean s'.
Proof.
  induction tr as [|e tr IH]; intros s s' I C A H; cbn [SqlSchedModel.srun] in H.
  - inversion H; subst; auto.
  - destruct (sstep s e) as [s1|] eqn:E; [|discriminate]. unfold isolated_failures in A. cbn [along] in A. rewrite E in A. destruct A as [A1 A2].
    assert (IE : isolated_event s e) by (destruct e; auto).
    eapply (IH s1); eauto.
    + eapply sinv_step; eauto. apply isolated_event_calm; auto.
    + eapply clean_step; eauto. apply isolated_event_calm; auto.
Qed.

(** poison *)
Lemma srun_inner : forall tr s s', sinv s -> no_timeout tr -> srun s tr = Some s' ->
  exists tr', run key_dec (sch s) tr' = Some (sch s') /\ calm key_dec (fun _ => false) (sch s) tr' /\ sinv s'.
Proof.
  induction tr as [|e tr IH]; intros s s' I NT H; cbn [SqlSchedModel.srun] in H.
  - inversion H; subst. exists []. cbn; auto.
  - destruct (sstep s e) as [s1|] eqn:E; [|discriminate].
    pose proof (no_timeout_scalm default (e :: tr) s NT) as C. unfold scalm in C. cbn [along] in C. rewrite E in C. destruct C as [C1 _].
    assert (I1 : sinv s1) by (eapply sinv_step; eauto).
    assert (NT1 : no_timeout tr) by (destruct e; cbn in NT; auto; destruct NT).
    destruct (IH _ _ I1 NT1 H) as (tr' & R & CR & I').
    pose proof (inner_step _ _ _ E) as S. destruct (inner s e) as [e'|] eqn:En.
    + exists (e' :: tr'). cbn [run calm]. rewrite S. split; [exact R|]. split; [|exact I']. split; [|exact CR].
      destruct e; inversion En; subst e'; try exact Logic.I; try destruct NT. exact C1.
    + rewrite S in R, CR. eauto.
Qed.

Definition has_key (s : store) (cx : call) (n : nat) := forall b cb tb, n <= b -> called s b cb -> within cx cb ->
  nth_error (tasks (sch s)) b = Some tb -> In (name_key cx) (t_keys tb).

Lemma stuck_keys : forall tr s s' x cx tx n, sinv s -> no_timeout tr -> srun s tr = Some s' ->
  nth_error (tasks (sch s)) x = Some tx -> settled tx -> In x (klook (reg (sch s)) (name_key cx)) ->
  has_key s cx n -> has_key s' cx n.
Proof.
  induction tr as [|e tr IH]; intros s s' x cx tx n I NT H Hx Sx Ix HK; cbn [SqlSchedModel.srun] in H.
  - inversion H; subst; auto.
  - destruct (sstep s e) as [s1|] eqn:E; [|discriminate].
    pose proof (no_timeout_scalm default (e :: tr) s NT) as C. unfold scalm in C. cbn [along] in C. rewrite E in C. destruct C as [C1 _].
    assert (I1 : sinv s1) by (eapply sinv_step; eauto).
    assert (NT1 : no_timeout tr) by (destruct e; cbn in NT; auto; destruct NT).
    pose proof (inner_step _ _ _ E) as S.
    assert (X : exists tx', nth_error (tasks (sch s1)) x = Some tx' /\ settled tx' /\ In x (klook (reg (sch s1)) (name_key cx))).
    { destruct (inner s e) as [e'|]; [|rewrite S; eauto].
      destruct (step_settled key_dec _ _ _ _ _ S Hx Sx) as (tx' & H1 & H2). exists tx'; split; auto. split.
      - unfold settled; rewrite H2; auto.
      - eapply step_stuck; eauto. apply (s_inv _ _ I). }
    destruct X as (tx' & Hx' & Sx' & Ix').
    apply (IH _ _ _ _ _ n I1 NT1 H Hx' Sx' Ix'). clear IH H.
    intros b cb tb Lb Hb W Htb.
    assert (LEN : length (calls s1) = length (tasks (sch s1))) by apply (s_len _ _ I1).
    assert (OLD : called s b cb -> In (name_key cx) (t_keys tb)).
    { intros Hb0. destruct (called_task default _ _ _ _ I Hb0) as (tb0 & Htb0).
      destruct (inner s e) as [e'|].
      - destruct (step_extends key_dec _ _ _ S _ _ Htb0) as (t1 & Ht1 & _ & S2 & _). rewrite Htb in Ht1. inversion Ht1; subst t1.
        rewrite S2. eapply HK; eauto.
      - rewrite S in Htb. eapply HK; eauto. }
    destruct e; cbn [SqlSchedModel.sstep] in E.
    + cbn [inner] in S. destruct (step key_dec (sch s) (sched_event s c)) as [y|] eqn:E1; [|discriminate].
      inversion E; subst s1; clear E. cbn [sch calls] in *.
      unfold called in Hb. cbn [calls] in Hb. destruct (Nat.lt_ge_cases b (length (calls s))) as [L|L].
      * rewrite nth_error_app1 in Hb by auto. auto.
      * rewrite nth_error_app2 in Hb by auto. destruct (b - length (calls s)) as [|[|m]] eqn:Eb; try discriminate.
        cbn in Hb. inversion Hb; subst cb. assert (b = length (tasks (sch s))) by (rewrite <- (s_len _ _ I); lia). subst b.
        unfold sched_event in E1. cbn [step] in E1.
        remember (registered _ _ _ _ (allObjectFeatures c)) as ks eqn:EK in E1.
        destruct (register_all _ _ _ _ _ ks) as [r ps]. inversion E1; subst y. cbn [tasks] in Htb.
        rewrite nth_error_app2, Nat.sub_diag in Htb by lia. cbn in Htb. inversion Htb; subst tb. cbn [t_keys]. rewrite EK.
        apply registered_covers; [|apply within_covered; auto]. eapply look_in; eauto.
    + apply with_sch_some in E. destruct E as (y & _ & ->). auto.
    + destruct (status_of s i) as [[]|]; try discriminate. destruct (nth_error (calls s) i) as [ci|]; [|discriminate].
      destruct (has i (executed s)); [discriminate|]. inversion E; subst s1. apply OLD. unfold called in *.
      replace (calls (effect default s i ci)) with (calls s) in Hb; auto. unfold effect. destruct (c_object ci), (c_feature ci), (c_cmd ci); auto.
    + destruct (has i (executed s)); [|discriminate]. apply with_sch_some in E. destruct E as (y & _ & ->). auto.
    + apply with_sch_some in E. destruct E as (y & _ & ->). auto.
    + apply with_sch_some in E. destruct E as (y & _ & ->). auto.
    + apply with_sch_some in E. destruct E as (y & _ & ->). auto.
    + apply with_sch_some in E. destruct E as (y & _ & ->). auto.
Qed.

Lemma store_poisoned : forall tr tr' s s' x cx b cb, no_timeout tr -> no_timeout tr' ->
  srun (store_init default) tr = Some s -> srun s tr' = Some s' ->
  called s x cx -> c_write cx = true -> failed s x -> In x (klook (reg (sch s)) (name_key cx)) ->
  length (calls s) <= b -> called s' b cb -> within cx cb -> ~ executing s' b /\ ~ succeeded s' b.
Proof.
  intros tr tr' s s' x cx b cb NT NT' H H' Hx W F Ix Lb Hb Wi.
  assert (I : sinv s) by (eapply sinv_run; eauto; [apply sinv_init|apply no_timeout_scalm; auto]).
  destruct (srun_inner _ _ _ I NT' H') as (tr0 & R & C & I').
  destruct (called_task default _ _ _ _ I Hx) as (tx & Htx). destruct (called_task default _ _ _ _ I' Hb) as (tb & Htb).
  unfold failed in F. rewrite status_task in F. destruct F as (t & Ht & St). rewrite Htx in Ht; inversion Ht; subst t.
  assert (P : poisoned key_dec (sch s) x (name_key cx) (length (tasks (sch s)))).
  { eapply poisoned_start; eauto.
    - apply (s_inv _ _ I).
    - unfold is_rejected. rewrite Htx, St. auto.
    - unfold wr_of. rewrite Htx. rewrite (s_write _ _ I _ _ _ Hx Htx). auto. }
  destruct (poisoned_run key_dec _ _ _ _ _ _ _ (s_inv _ _ I) C R P (le_n _)) as [P' _].
  assert (K : In (name_key cx) (t_keys tb)).
  { eapply (stuck_keys tr' s s' x cx tx (length (calls s)) I NT' H' Htx); eauto.
    - right; auto.
    - intros b0 cb0 tb0 L0 H0. unfold called in H0. assert (b0 < length (calls s)) by (apply nth_error_Some; congruence). lia. }
  assert (B : ~ (t_status tb = Running \/ t_status tb = Resolved)).
  { intro X. eapply poisoned_blocks; [apply (s_inv _ _ I')|exact P'| |exact Htb|exact K|exact X]. rewrite <- (s_len _ _ I). auto. }
  split; intro X; unfold executing, succeeded in X; rewrite status_task in X; destruct X as (t & Ht1 & St1); rewrite Htb in Ht1; inversion Ht1; subst; auto.
Qed.

End Store.
