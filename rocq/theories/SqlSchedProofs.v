(** Proofs about the schedulers of the SQL store. *)
From Coq Require Import String.
From Verif Require Import Base SchedModel SchedProofs SqlSchedModel SqlSchedSpec.
Open Scope nat_scope.

Notation klook := (look key_dec).

(** ** More about [SchedModel] *)
Section Generic.
Context {K : Type} (K_dec : forall a b : K, {a = b} + {a <> b}).

Lemma register_all_has : forall wr w i ks (r : regs K) k, In k (map fst r) -> In k (map fst (fst (register_all K_dec wr w i r ks))).
Proof.
  intros wr w i ks; induction ks as [|q ks IH]; intros r k H; cbn [register_all register1]; auto.
  destruct (register_all K_dec wr w i (put K_dec r q (look K_dec r q ++ [i])) ks) as [r2 ps] eqn:E.
  cbn [fst]. specialize (IH (put K_dec r q (look K_dec r q ++ [i])) k). rewrite E in IH. cbn [fst] in IH.
  apply IH. apply in_put; auto.
Qed.

Lemma look_in : forall (r : regs K) k i, In i (look K_dec r k) -> In k (map fst r).
Proof.
  intros r k i H. destruct (in_dec K_dec k (map fst r)); auto. rewrite look_notin in H; auto. destruct H.
Qed.

(** what a step does to tasks *)
Lemma step_extends : forall (s s' : state K) e, step K_dec s e = Some s' -> extends (tasks s) (tasks s').
Proof.
  assert (ST : forall s i st, extends (tasks s) (@tasks K (set_status s i st))).
  { intros s i st. unfold set_status. destruct (nth_error (tasks s) i) as [t|] eqn:E; [|apply extends_refl].
    eapply extends_upd; eauto. repeat split. }
  intros s s' e H. destruct e; cbn [step] in H.
  - destruct (register_all _ _ _ _ _ _) as [r ps]. inversion H. apply extends_app.
  - destruct (nth_error (tasks s) i) as [t|]; [|discriminate]. destruct (t_status t); try discriminate.
    destruct (_ || _); inversion H. apply ST.
  - destruct (nth_error (tasks s) i) as [t|]; [|discriminate]. destruct (t_status t); try discriminate.
    destruct (unregister_all _ _ _ _). inversion H. apply ST.
  - destruct (nth_error (tasks s) i) as [t|]; [|discriminate]. destruct (t_status t); try discriminate.
    destruct (unregister_all _ _ _ _). inversion H. apply ST.
  - destruct (nth_error (tasks s) i) as [t|]; [|discriminate]. destruct (t_status t); try discriminate. inversion H. apply ST.
  - destruct (nth_error (tasks s) i) as [t|]; [|discriminate]. destruct (t_status t); try discriminate.
    destruct (existsb _ _); inversion H. apply ST.
  - destruct (nth_error (tasks s) i) as [t|] eqn:E; [|discriminate]. inversion H. eapply extends_upd; eauto. repeat split.
Qed.

Definition is_call (e : event K) : bool := match e with ESched _ _ => true | _ => false end.
Lemma step_length : forall (s s' : state K) e, step K_dec s e = Some s' ->
  length (tasks s') = length (tasks s) + (if is_call e then 1 else 0).
Proof.
  assert (ST : forall s i st, length (@tasks K (set_status s i st)) = length (tasks s) + 0).
  { intros s i st. unfold set_status. destruct (nth_error (tasks s) i) as [t|] eqn:E; [|auto]. cbn. rewrite upd_length. auto. }
  intros s s' e H. destruct e; cbn [step] in H.
  - destruct (register_all _ _ _ _ _ _) as [r ps]. inversion H. cbn. rewrite app_length. auto.
  - destruct (nth_error (tasks s) i) as [t|]; [|discriminate]. destruct (t_status t); try discriminate.
    destruct (_ || _); inversion H. apply ST.
  - destruct (nth_error (tasks s) i) as [t|]; [|discriminate]. destruct (t_status t); try discriminate.
    destruct (unregister_all _ _ _ _). inversion H. apply ST.
  - destruct (nth_error (tasks s) i) as [t|]; [|discriminate]. destruct (t_status t); try discriminate.
    destruct (unregister_all _ _ _ _). inversion H. apply ST.
  - destruct (nth_error (tasks s) i) as [t|]; [|discriminate]. destruct (t_status t); try discriminate. inversion H. apply ST.
  - destruct (nth_error (tasks s) i) as [t|]; [|discriminate]. destruct (t_status t); try discriminate.
    destruct (existsb _ _); inversion H. apply ST.
  - destruct (nth_error (tasks s) i) as [t|] eqn:E; [|discriminate]. inversion H. cbn. rewrite upd_length. auto.
Qed.

(** a task that is settled keeps its status *)
Lemma step_settled : forall (s s' : state K) e i t, step K_dec s e = Some s' -> nth_error (tasks s) i = Some t -> settled t ->
  exists t', nth_error (tasks s') i = Some t' /\ t_status t' = t_status t.
Proof.
  assert (ST : forall (s : state K) j st i t u, nth_error (tasks s) j = Some u -> ~ settled u ->
    nth_error (tasks s) i = Some t -> settled t ->
    exists t', nth_error (tasks (set_status s j st)) i = Some t' /\ t_status t' = t_status t).
  { intros s j st i t u Hj U Hi S. unfold set_status. rewrite Hj. cbn. rewrite nth_upd.
    - destruct (Nat.eqb_spec i j) as [->|]; eauto. congruence.
    - apply nth_error_Some; congruence. }
  assert (U1 : forall t : task K, t_status t = Waiting -> ~ settled t) by (intros t E [H|H]; congruence).
  assert (U2 : forall t : task K, t_status t = Running -> ~ settled t) by (intros t E [H|H]; congruence).
  intros s s' e j u H Hj Sj. destruct e; cbn [step] in H.
  - destruct (register_all _ _ _ _ _ _) as [r ps]. inversion H. cbn. exists u; split; auto. rewrite nth_error_app1; auto.
    apply nth_error_Some; congruence.
  - destruct (nth_error (tasks s) i) as [t|] eqn:E; [|discriminate]. destruct (t_status t) eqn:E1; try discriminate.
    destruct (_ || _); inversion H. eapply ST; eauto.
  - destruct (nth_error (tasks s) i) as [t|] eqn:E; [|discriminate]. destruct (t_status t) eqn:E1; try discriminate.
    destruct (unregister_all _ _ _ _). inversion H. eapply ST; eauto.
  - destruct (nth_error (tasks s) i) as [t|] eqn:E; [|discriminate]. destruct (t_status t) eqn:E1; try discriminate.
    destruct (unregister_all _ _ _ _). inversion H. eapply ST; eauto.
  - destruct (nth_error (tasks s) i) as [t|] eqn:E; [|discriminate]. destruct (t_status t) eqn:E1; try discriminate.
    inversion H. eapply ST; eauto.
  - destruct (nth_error (tasks s) i) as [t|] eqn:E; [|discriminate]. destruct (t_status t) eqn:E1; try discriminate.
    destruct (existsb _ _); inversion H. eapply ST; eauto.
  - destruct (nth_error (tasks s) i) as [t|] eqn:E; [|discriminate]. inversion H. cbn. rewrite nth_upd.
    + destruct (Nat.eqb_spec j i) as [->|]; eauto. eexists; split; eauto. cbn. congruence.
    + apply nth_error_Some; congruence.
Qed.

(** a settled task that is still registered stays registered *)
Lemma step_stuck : forall c (s s' : state K) e i t k, inv K_dec c s -> step K_dec s e = Some s' -> nth_error (tasks s) i = Some t -> settled t ->
  In i (look K_dec (reg s) k) -> In i (look K_dec (reg s') k).
Proof.
  intros c s s' e i t k I H Hi Si Ii.
  assert (UR : forall j u r ok, nth_error (tasks s) j = Some u -> t_status u = Running ->
            unregister_all K_dec j (reg s) (t_keys u) = (r, ok) -> In i (look K_dec r k)).
  { intros j u r ok Hj Sj E. destruct (unregister_all_shrinks K_dec _ _ _ _ _ (inv_nodup K_dec c s I) E) as [_ S].
    destruct (S k) as (_ & _ & S3). apply (count_occ_In Nat.eq_dec). rewrite S3; [apply (count_occ_In Nat.eq_dec); auto|].
    intros ->. destruct Si; congruence. }
  destruct e; cbn [step] in H.
  - destruct (register_all _ _ _ _ _ _) as [r ps] eqn:E. inversion H. cbn.
    destruct (register_all_keys K_dec _ _ _ _ _ _ _ (inv_nodup K_dec c s I) E) as [_ L]. rewrite L. apply in_or_app; auto.
  - destruct (nth_error (tasks s) i0) as [u|] eqn:E; [|discriminate]. destruct (t_status u) eqn:E1; try discriminate.
    destruct (_ || _); inversion H. rewrite reg_set_status; auto.
  - destruct (nth_error (tasks s) i0) as [u|] eqn:E; [|discriminate]. destruct (t_status u) eqn:E1; try discriminate.
    destruct (unregister_all K_dec i0 (reg s) (t_keys u)) eqn:E2. inversion H. cbn. eauto.
  - destruct (nth_error (tasks s) i0) as [u|] eqn:E; [|discriminate]. destruct (t_status u) eqn:E1; try discriminate.
    destruct (unregister_all K_dec i0 (reg s) (t_keys u)) eqn:E2. inversion H. cbn. eauto.
  - destruct (nth_error (tasks s) i0) as [u|] eqn:E; [|discriminate]. destruct (t_status u) eqn:E1; try discriminate.
    inversion H. rewrite reg_set_status; auto.
  - destruct (nth_error (tasks s) i0) as [u|] eqn:E; [|discriminate]. destruct (t_status u) eqn:E1; try discriminate.
    destruct (existsb _ _); inversion H. rewrite reg_set_status; auto.
  - destruct (nth_error (tasks s) i0) as [u|] eqn:E; [|discriminate]. inversion H. auto.
Qed.

(** a rejected writer that is still registered under [k] blocks every later task under [k] *)
Definition poisoned (s : state K) (x : nat) (k : K) (n : nat) :=
  is_rejected (tasks s) x = true /\ wr_of (tasks s) false x = true /\ In x (look K_dec (reg s) k) /\
  forall b t, n <= b -> nth_error (tasks s) b = Some t -> In k (t_keys t) -> reach (tasks s) b x.

Lemma wr_extends : forall (ts ts' : list (task K)) x, extends ts ts' -> wr_of ts false x = true -> wr_of ts' false x = true.
Proof.
  intros ts ts' x E H. unfold wr_of in *. destruct (nth_error ts x) as [t|] eqn:Ht; [|discriminate].
  destruct (E _ _ Ht) as (t' & H' & S & _). rewrite H'. congruence.
Qed.

Lemma poisoned_step : forall c (s s' : state K) e x k n, inv K_dec c s -> calm_event K_dec c s e -> step K_dec s e = Some s' ->
  poisoned s x k n -> n <= length (tasks s) -> poisoned s' x k n.
Proof.
  intros c s s' e x k n I C H (P1 & P2 & P3 & P4) Ln.
  pose proof (step_extends _ _ _ H) as X.
  assert (I' : inv K_dec c s') by (eapply inv_step; eauto).
  unfold is_rejected in P1. destruct (nth_error (tasks s) x) as [tx|] eqn:Hx; [|discriminate].
  destruct (t_status tx) eqn:Sx; try discriminate.
  assert (SX : settled tx) by (right; auto).
  destruct (step_settled _ _ _ _ _ H Hx SX) as (tx' & Hx' & Sx').
  split; [|split; [|split]].
  - unfold is_rejected. rewrite Hx', Sx', Sx. auto.
  - exact (wr_extends _ _ _ X P2).
  - exact (step_stuck _ _ _ _ _ _ _ I H Hx SX P3).
  - intros b t Lb Hb Kb. destruct (Nat.lt_ge_cases b (length (tasks s))) as [L|L].
    + destruct (nth_error (tasks s) b) as [t0|] eqn:H0; [|apply nth_error_None in H0; lia].
      destruct (X _ _ H0) as (t1 & H1 & S1 & S2 & S3). rewrite Hb in H1. inversion H1; subst t1.
      eapply reach_extends; [exact X|]. eapply P4; eauto. congruence.
    + pose proof (step_length _ _ _ H) as LL. assert (b < length (tasks s')) by (apply nth_error_Some; congruence).
      destruct e; cbn [is_call] in LL; try lia.
      assert (b = length (tasks s)) by lia. subst b. cbn [step] in H.
      destruct (register_all K_dec (wr_of (tasks s) w) w (length (tasks s)) (reg s) ks) as [r ps] eqn:E.
      inversion H; subst s'. cbn [tasks reg] in *.
      rewrite nth_error_app2, Nat.sub_diag in Hb by lia. cbn in Hb. inversion Hb; subst t. cbn in Kb.
      eapply (inv_chain K_dec c _ I' k); cbn [tasks reg].
      * destruct (register_all_keys K_dec _ _ _ _ _ _ _ (inv_nodup K_dec c s I) E) as [_ L2]. rewrite L2.
        destruct (count_key_in K_dec k ks Kb) as (m & ->). apply in_split in P3. destruct P3 as (l1 & l2 & ->).
        cbn [repeat]. exists l1, l2, (repeat (length (tasks s)) m). rewrite <- app_assoc. auto.
      * intros ->. assert (length (tasks s) < length (tasks s)) by (apply nth_error_Some; congruence). lia.
      * left. eapply wr_extends; eauto.
Qed.

Lemma poisoned_run : forall c tr (s s' : state K) x k n, inv K_dec c s -> calm K_dec c s tr -> run K_dec s tr = Some s' ->
  poisoned s x k n -> n <= length (tasks s) -> poisoned s' x k n /\ inv K_dec c s'.
Proof.
  induction tr as [|e tr IH]; intros s s' x k n I C H P Ln; cbn in H.
  - inversion H; subst; auto.
  - destruct (step K_dec s e) as [s1|] eqn:E; [|discriminate]. cbn [calm] in C. rewrite E in C. destruct C as [C1 C2].
    eapply IH; [| |eassumption| |].
    + eapply inv_step; eauto.
    + exact C2.
    + eapply poisoned_step; eauto.
    + pose proof (step_length _ _ _ E). lia.
Qed.

Lemma poisoned_start : forall c s x k, inv K_dec c s -> is_rejected (tasks s) x = true -> wr_of (tasks s) false x = true ->
  In x (look K_dec (reg s) k) -> poisoned s x k (length (tasks s)).
Proof.
  intros c s x k I H W Ix. repeat split; auto. intros b t L Hb. assert (b < length (tasks s)) by (apply nth_error_Some; congruence). lia.
Qed.

Lemma poisoned_blocks : forall c s x k n b t, inv K_dec c s -> poisoned s x k n -> n <= b -> nth_error (tasks s) b = Some t ->
  In k (t_keys t) -> t_status t = Running \/ t_status t = Resolved -> False.
Proof.
  intros c s x k n b t I (P1 & _ & _ & P4) L Hb Kb St.
  assert (R : is_resolved (tasks s) x = true).
  { eapply reach_resolved; eauto. intros; congruence. }
  unfold is_rejected in P1; unfold is_resolved in R. destruct (nth_error (tasks s) x); [|discriminate].
  destruct (t_status t0); discriminate.
Qed.

(** a running task leaves all lists when its function returns *)
Lemma done_resolves : forall c (s s' : state K) i t, inv K_dec c s -> nth_error (tasks s) i = Some t -> step K_dec s (EDone i) = Some s' ->
  tasks s' = tasks (set_status s i Resolved).
Proof.
  intros c s s' i t I Ht H. cbn [step] in H. rewrite Ht in H. destruct (t_status t) eqn:E; try discriminate.
  destruct (unregister_all_found K_dec i (t_keys t) (reg s) (inv_nodup K_dec c s I)) as (r & E1 & _).
  { intros k. apply (inv_pending K_dec c s I _ _ Ht). intros [S|S]; congruence. }
  rewrite E1 in H. inversion H. auto.
Qed.
Lemma end_unregisters : forall c (s s' : state K) i e, inv K_dec c s -> e = EDone i \/ e = EErr i -> step K_dec s e = Some s' ->
  forall k, ~ In i (look K_dec (reg s') k).
Proof.
  intros c s s' i e I De H k. destruct De; subst e; cbn [step] in H;
  (destruct (nth_error (tasks s) i) as [t|] eqn:Ht; [|discriminate]; destruct (t_status t) eqn:E; try discriminate;
  destruct (unregister_all_found K_dec i (t_keys t) (reg s) (inv_nodup K_dec c s I)) as (r & E1 & F);
  [intros q; apply (inv_pending K_dec c s I _ _ Ht); intros [S|S]; congruence|];
  rewrite E1 in H; inversion H; cbn; auto).
Qed.

(** without repeated keys a task only waits for earlier ones *)
Lemma register_all_prev_lt : forall wr w i ks (r r' : regs K) ps p, keys_nodup r -> NoDup ks ->
  (forall k, ~ In i (look K_dec r k) \/ ~ In k ks) ->
  register_all K_dec wr w i r ks = (r', ps) -> In p ps -> p <> i.
Proof.
  intros wr w i ks; induction ks as [|k ks IH]; intros r r' ps p ND Nk NI H Ip; cbn [register_all register1] in H.
  - inversion H; subst. destruct Ip.
  - destruct (register_all K_dec wr w i (put K_dec r k (look K_dec r k ++ [i])) ks) as [r2 qs] eqn:E.
    inversion H; subst; clear H. inversion Nk; subst.
    assert (Q : In p qs -> p <> i).
    { intros X. eapply (IH _ _ _ _ (nodup_put K_dec _ _ _ ND) H2); eauto. intros q. rewrite look_put.
      destruct (K_dec q k); [subst; auto|]. destruct (NI q) as [?|N]; auto. right; intro; apply N; cbn; auto. }
    destruct (previous wr w (look K_dec r k)) as [x|] eqn:P; auto. destruct Ip as [->|Ip]; auto.
    destruct (NI k) as [N|N]; [|exfalso; apply N; cbn; auto]. intros ->. apply N. unfold previous in P. destruct w.
    + apply last_task_split in P. destruct P as (l & ->). apply in_or_app; cbn; auto.
    + apply last_write_some in P. destruct P as (_ & a & b & -> & _). apply in_or_app; cbn; auto.
Qed.

Definition prev_lt (s : state K) := forall i t p, nth_error (tasks s) i = Some t -> In p (t_prev t) -> p < i.

Lemma prev_lt_step : forall c (s s' : state K) e, inv K_dec c s -> prev_lt s -> step K_dec s e = Some s' ->
  (forall w ks, e = ESched w ks -> NoDup ks) -> prev_lt s'.
Proof.
  intros c s s' e I P H ND i t p Hi Ip.
  pose proof (step_extends _ _ _ H) as X. pose proof (step_length _ _ _ H) as LL.
  assert (Li : i < length (tasks s')) by (apply nth_error_Some; congruence).
  destruct (Nat.lt_ge_cases i (length (tasks s))) as [L|L].
  - destruct (nth_error (tasks s) i) as [t0|] eqn:H0; [|apply nth_error_None in H0; lia].
    destruct (X _ _ H0) as (t1 & H1 & _ & _ & S3). rewrite Hi in H1. inversion H1; subst t1. eapply P; eauto. congruence.
  - destruct e; cbn [is_call] in LL; try lia. assert (i = length (tasks s)) by lia. subst i. cbn [step] in H.
    destruct (register_all K_dec (wr_of (tasks s) w) w (length (tasks s)) (reg s) ks) as [r ps] eqn:E.
    inversion H; subst s'. cbn [tasks] in *. rewrite nth_error_app2, Nat.sub_diag in Hi by lia. cbn in Hi. inversion Hi; subst t.
    cbn in Ip.
    assert (LT : forall k q, In q (look K_dec (reg s) k) -> q < length (tasks s)).
    { intros k q Hq. destruct (inv_reg K_dec c s I _ _ Hq) as (u & Hu & _). apply nth_error_Some; congruence. }
    assert (p <> length (tasks s)).
    { eapply register_all_prev_lt; [apply (inv_nodup K_dec c s I)|apply (ND _ _ eq_refl)| |exact E|exact Ip].
      intros k. left. intro Y. apply LT in Y. lia. }
    destruct (register_all_prev K_dec _ _ _ _ _ _ _ _ (inv_nodup K_dec c s I) E Ip) as [->|(k & _ & Hk)]; [lia|].
    apply LT in Hk. lia.
Qed.

(** then some task can proceed as long as one is not settled *)
Lemma progress : forall s : state K, prev_lt s -> (exists i t, nth_error (tasks s) i = Some t /\ ~ settled t) ->
  exists i t, nth_error (tasks s) i = Some t /\ ~ settled t /\
    (t_status t = Running \/ step K_dec s (EStart i) <> None \/ step K_dec s (EDep i) <> None).
Proof.
  intros s P (i & t & Hi & Ui). revert t Hi Ui. induction i as [i IH] using lt_wf_ind; intros t Hi Ui.
  destruct (t_status t) eqn:St; try (exfalso; apply Ui; unfold settled; rewrite St; tauto).
  - assert (D : (forall p, In p (t_prev t) -> exists u, nth_error (tasks s) p = Some u /\ settled u) \/
               (exists p u, In p (t_prev t) /\ nth_error (tasks s) p = Some u /\ ~ settled u)).
    { assert (LT : forall p, In p (t_prev t) -> p < i) by (intros; eapply P; eauto).
      clear - LT Hi. induction (t_prev t) as [|p l IHl]; [left; intros p []|].
      assert (p < i) by (apply LT; cbn; auto).
      destruct (nth_error (tasks s) p) as [u|] eqn:Hp.
      - destruct IHl as [A|(q & v & A & B)]; [intros; apply LT; cbn; auto| |right; exists q, v; cbn; tauto].
        destruct (t_status u) eqn:Su.
        + right; exists p, u. cbn; repeat split; auto. intros [Y|Y]; congruence.
        + right; exists p, u. cbn; repeat split; auto. intros [Y|Y]; congruence.
        + left. intros q [->|Hq]; auto. exists u; split; auto. left; auto.
        + left. intros q [->|Hq]; auto. exists u; split; auto. right; auto.
      - apply nth_error_None in Hp. assert (i < length (tasks s)) by (apply nth_error_Some; congruence). lia. }
    destruct D as [D|(p & u & Ip & Hp & Up)].
    + exists i, t. split; auto. split; auto. right. cbn [step]. rewrite Hi, St.
      destruct (forallb (is_resolved (tasks s)) (t_prev t)) eqn:F.
      * left. rewrite orb_true_r. discriminate.
      * right. destruct (existsb (is_rejected (tasks s)) (t_prev t)) eqn:G; [discriminate|]. exfalso.
        rewrite <- not_true_iff_false in F. apply F. apply forallb_forall. intros p Ip.
        destruct (D p Ip) as (u & Hu & [Su|Su]); unfold is_resolved; rewrite Hu, Su; auto.
        rewrite <- not_true_iff_false in G. exfalso; apply G. apply existsb_exists. exists p; split; auto.
        unfold is_rejected. rewrite Hu, Su; auto.
    + eapply (IH p); eauto.
  - exists i, t. auto.
Qed.

End Generic.
