(** Facts about the admission discipline of [SchedModel]. *)
From Verif Require Import Base SchedModel.
Open Scope nat_scope.

Section Proofs.
Context {K : Type} (K_dec : forall a b : K, {a = b} + {a <> b}).
Notation look := (look K_dec).
Notation put := (put K_dec).
Notation del := (del K_dec).
Notation step := (step K_dec).
Notation run := (run K_dec).

Lemma look_put : forall (r : regs K) k l k', look (put r k l) k' = if K_dec k' k then l else look r k'.
Proof.
  intros r; induction r as [|[q m] r IH]; intros k l k'; cbn.
  - destruct (K_dec k' k); auto.
  - destruct (K_dec k q) as [E|E]; cbn.
    + subst. destruct (K_dec k' q); auto.
    + rewrite IH. destruct (K_dec k' q), (K_dec k' k); subst; congruence.
Qed.

Definition keys_nodup (r : regs K) := NoDup (map fst r).

Lemma in_put : forall r k l q, In q (map fst (put r k l)) <-> q = k \/ In q (map fst r).
Proof.
  induction r as [|[q m] r IH]; intros k l q'; cbn.
  - firstorder.
  - destruct (K_dec k q); cbn.
    + subst; intuition.
    + rewrite IH. intuition.
Qed.

Lemma nodup_put : forall r k l, keys_nodup r -> keys_nodup (put r k l).
Proof.
  unfold keys_nodup; induction r as [|[q m] r IH]; intros k l H; cbn.
  - constructor; auto; constructor.
  - inversion H; subst. destruct (K_dec k q); cbn.
    + constructor; auto.
    + constructor; auto. rewrite in_put. intros [E|E]; auto.
Qed.

Lemma look_notin : forall r k, ~ In k (map fst r) -> look r k = [].
Proof.
  induction r as [|[q m] r IH]; intros k H; cbn in *; auto.
  destruct (K_dec k q); [subst; intuition|apply IH; intuition].
Qed.

Lemma look_del : forall r k k', keys_nodup r -> look (del r k) k' = if K_dec k' k then [] else look r k'.
Proof.
  unfold keys_nodup; induction r as [|[q m] r IH]; intros k k' H; cbn.
  - destruct (K_dec k' k); auto.
  - inversion H; subst. destruct (K_dec k q) as [E|E]; cbn.
    + subst. destruct (K_dec k' q); auto. subst; apply look_notin; auto.
    + rewrite IH by auto. destruct (K_dec k' q), (K_dec k' k); subst; congruence.
Qed.

Lemma in_del : forall r k q, In q (map fst (del r k)) -> In q (map fst r).
Proof.
  induction r as [|[q m] r IH]; intros k q'; cbn; auto.
  destruct (K_dec k q); cbn; intuition eauto.
Qed.

Lemma nodup_del : forall r k, keys_nodup r -> keys_nodup (del r k).
Proof.
  unfold keys_nodup; induction r as [|[q m] r IH]; intros k H; cbn; auto.
  inversion H; subst. destruct (K_dec k q); cbn; auto.
  constructor; auto. intro X; apply in_del in X; auto.
Qed.

Lemma upd_length : forall {A} (l : list A) n x, length (upd l n x) = length l.
Proof. intros A l; induction l; intros [|n] x; cbn; auto. Qed.
Lemma nth_upd : forall {A} (l : list A) n x m, n < length l -> nth_error (upd l n x) m = if Nat.eqb m n then Some x else nth_error l m.
Proof.
  intros A l; induction l as [|y l IH]; intros [|n] x [|m] H; cbn in *; auto; try lia.
  apply IH; lia.
Qed.

Lemma last_task_app : forall l i, last_task (l ++ [i]) = Some i.
Proof. induction l as [|x l IH]; intros i; auto. cbn. rewrite IH. destruct (l ++ [i]) eqn:E; auto. destruct l; discriminate. Qed.
Lemma last_task_split : forall l i, last_task l = Some i -> exists l', l = l' ++ [i].
Proof.
  intros l; destruct l as [|x l] using rev_ind; intros i H; [discriminate|].
  rewrite last_task_app in H. inversion H; subst. eauto.
Qed.
Lemma last_task_none : forall l, last_task l = None -> l = [].
Proof. intros l; destruct l as [|x l] using rev_ind; auto. rewrite last_task_app; discriminate. Qed.
Lemma last_write_some : forall wr l i, last_write wr l = Some i ->
  wr i = true /\ exists a b, l = a ++ i :: b /\ forall x, In x b -> wr x = false.
Proof.
  induction l as [|x l IH]; intros i H; cbn in H; [discriminate|].
  destruct (last_write wr l) as [j|] eqn:E.
  - inversion H; subst. destruct (IH i eq_refl) as (W & a & b & E1 & E2).
    split; auto. exists (x :: a), b. subst; auto.
  - destruct (wr x) eqn:W; inversion H; subst. split; auto.
    exists [], l; split; auto. clear - E. induction l as [|y l IH]; cbn in *; [tauto|].
    destruct (last_write wr l) as [j|] eqn:E1; [discriminate|].
    destruct (wr y) eqn:W; [discriminate|]. intros x [?|?]; subst; auto.
Qed.
Lemma last_write_none : forall wr l, last_write wr l = None -> forall x, In x l -> wr x = false.
Proof.
  induction l as [|y l IH]; cbn; intros E x; [tauto|].
  destruct (last_write wr l) as [j|] eqn:E1; [discriminate|].
  destruct (wr y) eqn:W; [discriminate|]. intros [?|?]; subst; auto.
Qed.

(** [a] precedes [b] in [l] *)
Definition before (l : list nat) (a b : nat) := exists l1 l2 l3, l = l1 ++ a :: l2 ++ b :: l3.

Lemma before_app : forall l i a b, before (l ++ [i]) a b -> before l a b \/ (b = i /\ In a l).
Proof.
  intros l i a b (l1 & l2 & l3 & E).
  destruct l3 as [|z l3] using rev_ind.
  - right. replace (l1 ++ a :: l2 ++ [b]) with ((l1 ++ a :: l2) ++ [b]) in E by (rewrite <- app_assoc; auto).
    apply app_inj_tail in E. destruct E; subst. split; auto. apply in_or_app; cbn; auto.
  - left. clear IHl3. replace (l1 ++ a :: l2 ++ b :: l3 ++ [z]) with ((l1 ++ a :: l2 ++ b :: l3) ++ [z]) in E
      by (rewrite <- ?app_assoc; cbn; rewrite <- ?app_assoc; auto).
    apply app_inj_tail in E. destruct E; subst. exists l1, l2, l3; auto.
Qed.

Lemma before_cons : forall x l a b, before (x :: l) a b <-> (x = a /\ In b l) \/ before l a b.
Proof.
  intros x l a b; split.
  - intros ([|y l1] & l2 & l3 & E); cbn in E; inversion E; subst.
    + left; split; auto. apply in_or_app; cbn; auto.
    + right. exists l1, l2, l3; auto.
  - intros [[-> H]|(l1 & l2 & l3 & ->)].
    + apply in_split in H. destruct H as (l2 & l3 & ->). exists [], l2, l3; auto.
    + exists (x :: l1), l2, l3; auto.
Qed.

Lemma before_in : forall l a b, before l a b -> In a l /\ In b l.
Proof.
  intros l a b (l1 & l2 & l3 & ->). split; apply in_or_app; cbn; auto. right; right. apply in_or_app; cbn; auto.
Qed.

Lemma in_removed : forall n (l : list nat) x, In x (firstn n l ++ skipn (S n) l) -> In x l.
Proof.
  intros n l x H. apply in_app_iff in H. destruct H as [H|H].
  - rewrite <- (firstn_skipn n l). apply in_or_app; auto.
  - rewrite <- (firstn_skipn (S n) l). apply in_or_app; auto.
Qed.

Lemma before_remove : forall n l a b, before (firstn n l ++ skipn (S n) l) a b -> before l a b.
Proof.
  intros n l; revert n; induction l as [|x l IH]; intros [|n] a b H; auto.
  - rewrite before_cons; auto.
  - change (before (x :: (firstn n l ++ skipn (S n) l)) a b) in H.
    rewrite before_cons in H |- *. destruct H as [[-> H]|H].
    + left; split; auto. eapply in_removed; eauto.
    + right. eapply IH. exact H.
Qed.

Lemma index_of_split : forall i l n, index_of i l = Some n ->
  exists a b, l = a ++ i :: b /\ ~ In i a /\ n = length a.
Proof.
  induction l as [|j l IH]; intros n H; cbn in H; [discriminate|].
  destruct (Nat.eqb_spec i j).
  - inversion H; subst. exists [], l; auto.
  - destruct (index_of i l) as [m|]; [|discriminate]. cbn in H. inversion H; subst.
    destruct (IH m eq_refl) as (a & b & -> & N & ->). exists (j :: a), b. cbn. repeat split; auto. intros [?|?]; auto.
Qed.
Lemma index_of_none : forall i l, index_of i l = None -> ~ In i l.
Proof.
  induction l as [|j l IH]; cbn; intros H; [tauto|]. intros [E|E]; subst.
  - rewrite Nat.eqb_refl in H; discriminate.
  - destruct (Nat.eqb i j); [discriminate|]. destruct (index_of i l); [discriminate|]. apply IH; auto.
Qed.

Lemma removed_eq : forall (a b : list nat) i, firstn (length a) (a ++ i :: b) ++ skipn (S (length a)) (a ++ i :: b) = a ++ b.
Proof.
  intros. f_equal.
  - rewrite firstn_app, Nat.sub_diag, firstn_all; cbn. apply app_nil_r.
  - rewrite skipn_app. rewrite skipn_all2 by lia. replace (S (length a) - length a) with 1 by lia. auto.
Qed.

(** unregistering *)
Lemma unregister1_look : forall i r k r' k', keys_nodup r -> unregister1 K_dec i r k = Some r' ->
  keys_nodup r' /\ look r' k' = if K_dec k' k then (match index_of i (look r k) with Some n => firstn n (look r k) ++ skipn (S n) (look r k) | None => [] end) else look r k'.
Proof.
  intros i r k r' k' ND H. unfold unregister1 in H.
  destruct (index_of i (look r k)) as [n|] eqn:E; [|discriminate].
  destruct (firstn n (look r k) ++ skipn (S n) (look r k)) eqn:L; inversion H; subst; split.
  - apply nodup_del; auto.
  - rewrite look_del by auto. destruct (K_dec k' k); auto.
  - apply nodup_put; auto.
  - rewrite look_put. destruct (K_dec k' k); auto.
Qed.

(** what may happen to a list of tasks when [i] leaves *)
Definition shrinks (i : nat) (l l' : list nat) :=
  (forall a b, before l' a b -> before l a b) /\ (forall x, In x l' -> In x l) /\
  (forall x, x <> i -> count_occ Nat.eq_dec l' x = count_occ Nat.eq_dec l x).

Lemma shrinks_refl : forall i l, shrinks i l l.
Proof. unfold shrinks; auto. Qed.
Lemma shrinks_trans : forall i a b c, shrinks i a b -> shrinks i b c -> shrinks i a c.
Proof. unfold shrinks; intros i a b c (A1 & A2 & A3) (B1 & B2 & B3); repeat split; auto. intros; rewrite B3; auto. Qed.
Lemma shrinks_remove : forall i l n, index_of i l = Some n -> shrinks i l (firstn n l ++ skipn (S n) l).
Proof.
  intros i l n H. split; [|split].
  - intros; eapply before_remove; eauto.
  - intros; eapply in_removed; eauto.
  - intros x N. destruct (index_of_split _ _ _ H) as (a & b & -> & _ & ->). rewrite removed_eq.
    rewrite !count_occ_app. f_equal. rewrite count_occ_cons_neq; auto.
Qed.

Lemma unregister_all_shrinks : forall i ks r r' ok, keys_nodup r -> unregister_all K_dec i r ks = (r', ok) ->
  keys_nodup r' /\ forall k, shrinks i (look r k) (look r' k).
Proof.
  intros i ks; induction ks as [|k ks IH]; intros r r' ok ND H; cbn in H.
  - inversion H; subst. split; auto. intros; apply shrinks_refl.
  - destruct (unregister1 K_dec i r k) as [r1|] eqn:E.
    + destruct (unregister1_look _ _ _ _ k ND E) as [ND1 _].
      destruct (IH _ _ _ ND1 H) as [ND' S']. split; auto. intros k'.
      eapply shrinks_trans; [|apply S'].
      destruct (unregister1_look _ _ _ _ k' ND E) as [_ E1]. rewrite E1.
      destruct (K_dec k' k); [|apply shrinks_refl]. subst.
      unfold unregister1 in E. destruct (index_of i (look r k)) eqn:E2; [|discriminate]. apply shrinks_remove; auto.
    + inversion H; subst. split; auto. intros; apply shrinks_refl.
Qed.

(** registering *)
Fixpoint count_key (k : K) (ks : list K) : nat :=
  match ks with [] => 0 | k' :: ks' => (if K_dec k k' then 1 else 0) + count_key k ks' end.

Lemma register_all_keys : forall wr w i ks r r' ps, keys_nodup r -> register_all K_dec wr w i r ks = (r', ps) ->
  keys_nodup r' /\ forall k, look r' k = look r k ++ repeat i (count_key k ks).
Proof.
  intros wr w i ks; induction ks as [|k ks IH]; intros r r' ps ND H.
  - cbn in H. inversion H; subst. split; auto. intros; cbn; rewrite app_nil_r; auto.
  - cbn [register_all register1] in H.
    destruct (register_all K_dec wr w i (put r k (look r k ++ [i])) ks) as [r2 qs] eqn:E.
    inversion H; subst. destruct (IH _ _ _ (nodup_put _ _ _ ND) E) as [ND' L]. split; auto.
    intros q. rewrite L, look_put. cbn [count_key]. destruct (K_dec q k); auto.
    subst. cbn. rewrite <- app_assoc. auto.
Qed.

Lemma register_all_prev : forall wr w i ks r r' ps p, keys_nodup r -> register_all K_dec wr w i r ks = (r', ps) ->
  In p ps -> p = i \/ exists k, In k ks /\ In p (look r k).
Proof.
  intros wr w i ks; induction ks as [|k ks IH]; intros r r' ps p ND H Hp.
  - cbn in H. inversion H; subst. destruct Hp.
  - cbn [register_all register1] in H.
    destruct (register_all K_dec wr w i (put r k (look r k ++ [i])) ks) as [r2 qs] eqn:E.
    inversion H; subst; clear H.
    assert (Hq : In p qs -> p = i \/ exists k0, In k0 (k :: ks) /\ In p (look r k0)).
    { intros X. destruct (IH _ _ _ _ (nodup_put _ _ _ ND) E X) as [?|(k0 & I0 & L0)]; auto.
      rewrite look_put in L0. destruct (K_dec k0 k); [|right; exists k0; cbn; auto].
      apply in_app_iff in L0. destruct L0 as [L0|[L0|[]]]; auto. subst. right; exists k; cbn; auto. }
    destruct (previous wr w (look r k)) as [x|] eqn:P; auto.
    destruct Hp as [->|Hp]; auto. right; exists k; split; [cbn; auto|].
    unfold previous in P. destruct w.
    + apply last_task_split in P. destruct P as (l & ->). apply in_or_app; cbn; auto.
    + apply last_write_some in P. destruct P as (_ & a & b & -> & _). apply in_or_app; cbn; auto.
Qed.

(** the first registration under a key sees the list before the call *)
Lemma register_all_waits : forall wr w i ks r r' ps k, keys_nodup r -> register_all K_dec wr w i r ks = (r', ps) -> In k ks ->
  match previous wr w (look r k) with Some x => In x ps | None => True end.
Proof.
  intros wr w i ks; induction ks as [|k ks IH]; intros r r' ps q ND H I; [destruct I|].
  cbn [register_all register1] in H.
  destruct (register_all K_dec wr w i (put r k (look r k ++ [i])) ks) as [r2 qs] eqn:E.
  inversion H; subst; clear H.
  destruct (K_dec q k) as [->|N].
  - destruct (previous wr w (look r k)); auto. cbn; auto.
  - destruct I as [->|I]; [congruence|].
    specialize (IH _ _ _ _ (nodup_put _ _ _ ND) E I). rewrite look_put in IH.
    destruct (K_dec q k); [congruence|].
    destruct (previous wr w (look r q)); auto.
    destruct (previous wr w (look r k)); cbn; auto.
Qed.

Lemma count_key_in : forall k ks, In k ks -> exists n, count_key k ks = S n.
Proof.
  intros k ks; induction ks as [|q ks IH]; intros H; [destruct H|]. cbn.
  destruct (K_dec k q); [cbn; eauto|]. destruct H; [congruence|]. cbn; auto.
Qed.
Lemma count_key_notin : forall k ks, ~ In k ks -> count_key k ks = 0.
Proof.
  intros k ks; induction ks as [|q ks IH]; intros H; auto. cbn in *.
  destruct (K_dec k q); subst; [intuition|]. apply IH; auto.
Qed.

Lemma unregister_all_found : forall i ks r, keys_nodup r ->
  (forall k, count_occ Nat.eq_dec (look r k) i = count_key k ks) ->
  exists r', unregister_all K_dec i r ks = (r', true) /\ forall k, ~ In i (look r' k).
Proof.
  intros i ks; induction ks as [|k ks IH]; intros r ND H; cbn [unregister_all].
  - exists r; split; auto. intros k. apply (count_occ_not_In Nat.eq_dec). apply H.
  - destruct (unregister1 K_dec i r k) as [r1|] eqn:E.
    + destruct (unregister1_look _ _ _ _ k ND E) as [ND1 _].
      destruct (IH r1 ND1) as (r' & E' & F); [|exists r'; auto].
      intros q. destruct (unregister1_look _ _ _ _ q ND E) as [_ E1]. rewrite E1. specialize (H q). cbn [count_key] in H.
      destruct (K_dec q k); [|exact H]. subst.
      unfold unregister1 in E. destruct (index_of i (look r k)) as [n|] eqn:E2; [|discriminate].
      destruct (index_of_split _ _ _ E2) as (a & b & E3 & _ & ->). rewrite E3 in H |- *. rewrite removed_eq.
      rewrite count_occ_app in H |- *. rewrite count_occ_cons_eq in H by auto. lia.
    + unfold unregister1 in E. destruct (index_of i (look r k)) as [n|] eqn:E2; [discriminate|].
      apply index_of_none in E2. apply (count_occ_not_In Nat.eq_dec) in E2. rewrite H in E2. cbn [count_key] in E2.
      destruct (K_dec k k); [|congruence]. discriminate.
Qed.

(** ** Reachable states *)
Notation state := (state K).
Notation task := (task K).
Notation event := (event K).

Inductive reach (ts : list task) : nat -> nat -> Prop :=
| reach1 b a t : nth_error ts b = Some t -> In a (t_prev t) -> reach ts b a
| reach2 b c a t : nth_error ts b = Some t -> In c (t_prev t) -> reach ts c a -> reach ts b a.

Lemma reach_trans : forall ts b c a, reach ts b c -> reach ts c a -> reach ts b a.
Proof. induction 1; intros; [eapply reach2; eauto|]. eapply reach2; eauto. Qed.

Definition settled (t : task) := t_status t = Resolved \/ t_status t = Rejected.

(** what never changes about a task *)
Definition same (t t' : task) := t_write t' = t_write t /\ t_keys t' = t_keys t /\ t_prev t' = t_prev t.

Definition extends (ts ts' : list task) :=
  forall i t, nth_error ts i = Some t -> exists t', nth_error ts' i = Some t' /\ same t t'.

Lemma extends_refl : forall ts, extends ts ts.
Proof. intros ts i t H; exists t; split; auto. repeat split. Qed.
Lemma extends_trans : forall a b c, extends a b -> extends b c -> extends a c.
Proof.
  intros a b c A B i t H. destruct (A _ _ H) as (t1 & H1 & S1 & S2 & S3). destruct (B _ _ H1) as (t2 & H2 & R1 & R2 & R3).
  exists t2; repeat split; auto; congruence.
Qed.
Lemma extends_app : forall ts x, extends ts (ts ++ x).
Proof. intros ts x i t H. exists t; split; [|repeat split]. rewrite nth_error_app1; auto. apply nth_error_Some; congruence. Qed.
Lemma extends_upd : forall ts i t t', nth_error ts i = Some t -> same t t' -> extends ts (upd ts i t').
Proof.
  intros ts i t t' H S j u Hj. assert (L : i < length ts) by (apply nth_error_Some; congruence).
  destruct (Nat.eqb_spec j i) as [->|N].
  - exists t'; split. rewrite nth_upd, Nat.eqb_refl; auto. congruence.
  - exists u; split; [|repeat split]. rewrite nth_upd by auto. apply Nat.eqb_neq in N; rewrite N; auto.
Qed.
Lemma reach_extends : forall ts ts' b a, extends ts ts' -> reach ts b a -> reach ts' b a.
Proof.
  intros ts ts' b a X; induction 1.
  - destruct (X _ _ H) as (t' & H' & _ & _ & P). eapply reach1; eauto. congruence.
  - destruct (X _ _ H) as (t' & H' & _ & _ & P). eapply reach2; eauto. congruence.
Qed.

Definition pending (ts : list task) (a : nat) := exists t, nth_error ts a = Some t /\ ~ settled t.

(** [c k]: under key [k], no reading task is scheduled behind another one *)
Variable c : K -> bool.

Record inv (s : state) : Prop := {
  inv_nodup : keys_nodup (reg s);
  inv_reg : forall k i, In i (look (reg s) k) -> exists t, nth_error (tasks s) i = Some t /\ In k (t_keys t);
  inv_pending : forall i t, nth_error (tasks s) i = Some t -> ~ settled t ->
    forall k, count_occ Nat.eq_dec (look (reg s) k) i = count_key k (t_keys t);
  inv_chain : forall k a b, before (look (reg s) k) a b -> a <> b ->
    wr_of (tasks s) false a = true \/ (c k = true /\ pending (tasks s) a) -> reach (tasks s) b a;
  inv_prev : forall b t, nth_error (tasks s) b = Some t -> t_status t = Running \/ t_status t = Resolved ->
    forall p, In p (t_prev t) -> is_resolved (tasks s) p = true;
  inv_order : forall a b ta tb k, nth_error (tasks s) a = Some ta -> nth_error (tasks s) b = Some tb -> a < b ->
    In k (t_keys ta) -> In k (t_keys tb) -> t_write ta = true \/ (c k = true /\ t_write tb = true) -> settled ta \/ reach (tasks s) b a;
  inv_ctx : forall i t, nth_error (tasks s) i = Some t -> t_cancelled t = false }.

Lemma reach_resolved : forall s b a, inv s -> reach (tasks s) b a ->
  (forall t, nth_error (tasks s) b = Some t -> t_status t = Running \/ t_status t = Resolved) -> is_resolved (tasks s) a = true.
Proof.
  intros s b a I R; induction R; intros H1.
  - eapply inv_prev; eauto.
  - apply IHR. intros t0 H2. assert (E : is_resolved (tasks s) c0 = true) by (eapply (inv_prev s I b t); eauto).
    unfold is_resolved in E. rewrite H2 in E. destruct (t_status t0); auto; discriminate.
Qed.

Lemma resolved_settled : forall ts a ta, nth_error ts a = Some ta -> is_resolved ts a = true -> settled ta.
Proof. intros ts a ta H. unfold is_resolved, settled. rewrite H. destruct (t_status ta); auto; discriminate. Qed.

(** the order of conflicting tasks *)
Lemma inv_ordered : forall s a b ta tb k, inv s -> nth_error (tasks s) a = Some ta -> nth_error (tasks s) b = Some tb ->
  a < b -> In k (t_keys ta) -> In k (t_keys tb) -> t_write ta = true \/ (c k = true /\ t_write tb = true) ->
  t_status tb = Running \/ t_status tb = Resolved -> settled ta.
Proof.
  intros s a b ta tb k I Ha Hb L Ka Kb W St.
  destruct (inv_order s I _ _ _ _ _ Ha Hb L Ka Kb W) as [?|R]; auto.
  eapply resolved_settled; eauto. eapply reach_resolved; eauto. intros; congruence.
Qed.

(** reads may not be queued behind reads under the calm keys *)
Definition calm_event (s : state) (e : event) : Prop :=
  match e with
  | ESched false ks => forall k, In k ks -> c k = true -> forall a, In a (look (reg s) k) -> pending (tasks s) a ->
      wr_of (tasks s) false a = false -> exists x, before (look (reg s) k) a x /\ wr_of (tasks s) false x = true
  | ECancel _ => False
  | _ => True
  end.
Fixpoint calm (s : state) (tr : list event) : Prop :=
  match tr with
  | [] => True
  | e :: tr' => calm_event s e /\ match step s e with Some s' => calm s' tr' | None => True end
  end.

Lemma before_count : forall l i n a b, before (l ++ repeat i n) a b -> a <> b ->
  before l a b \/ (b = i /\ In a l /\ n <> 0).
Proof.
  intros l i n; revert l; induction n as [|n IH]; intros l a b H N.
  - cbn in H. rewrite app_nil_r in H; auto.
  - cbn in H. replace (l ++ i :: repeat i n) with ((l ++ [i]) ++ repeat i n) in H by (rewrite <- app_assoc; auto).
    apply IH in H; auto. destruct H as [H|(-> & H & _)].
    + apply before_app in H. destruct H as [H|[-> H]]; auto.
    + apply in_app_iff in H. destruct H as [H|[H|[]]]; auto. congruence.
Qed.

Lemma wr_of_app : forall (ts : list task) x w i, i < length ts -> wr_of (ts ++ x) w i = wr_of ts w i.
Proof. intros. unfold wr_of. rewrite nth_error_app1; auto. Qed.
Lemma wr_of_in : forall (ts : list task) w w' i, i < length ts -> wr_of ts w i = wr_of ts w' i.
Proof. intros. unfold wr_of. destruct (nth_error ts i) eqn:E; auto. apply nth_error_None in E; lia. Qed.

Lemma in_before_last : forall l a x, In a l -> a <> x -> last_task l = Some x -> before l a x.
Proof.
  intros l a x H N L. apply last_task_split in L. destruct L as (l' & ->).
  apply in_app_iff in H. destruct H as [H|[H|[]]]; [|congruence].
  apply in_split in H. destruct H as (l1 & l2 & ->). exists l1, l2, []. rewrite <- app_assoc. auto.
Qed.

Lemma inv_sched : forall s w ks s', inv s -> calm_event s (ESched w ks) -> step s (ESched w ks) = Some s' -> inv s'.
Proof.
  intros s w ks s' I C H. cbn [SchedModel.step] in H.
  destruct (register_all K_dec (wr_of (tasks s) w) w (length (tasks s)) (reg s) ks) as [r ps] eqn:E.
  inversion H; subst s'; clear H.
  destruct (register_all_keys _ _ _ _ _ _ _ (inv_nodup s I) E) as [ND L].
  assert (LT : forall k i, In i (look (reg s) k) -> i < length (tasks s)).
  { intros k i Hi. destruct (inv_reg s I _ _ Hi) as (t & Ht & _). apply nth_error_Some; congruence. }
  assert (NEW : nth_error (tasks s ++ [mkT w ks ps Waiting false]) (length (tasks s)) = Some (mkT w ks ps Waiting false)).
  { rewrite nth_error_app2, Nat.sub_diag; auto. }
  pose proof (extends_app (tasks s) [mkT w ks ps Waiting false]) as X.
  (* every conflicting task of the list is reached by the new one *)
  assert (RCH : forall k a, In k ks -> In a (look (reg s) k) -> wr_of (tasks s) false a = true \/ (c k = true /\ pending (tasks s) a) ->
            reach (tasks s ++ [mkT w ks ps Waiting false]) (length (tasks s)) a).
  { intros k a Ik Ia W.
    pose proof (register_all_waits _ _ _ _ _ _ _ _ (inv_nodup s I) E Ik) as P.
    destruct w; cbn [previous] in P.
    - destruct (last_task (look (reg s) k)) as [x|] eqn:EL.
      + destruct (Nat.eq_dec a x) as [->|N]; [eapply reach1; eauto|].
        eapply reach2; [exact NEW|exact P|]. eapply reach_extends; [exact X|].
        eapply inv_chain; eauto. apply in_before_last; auto.
      + apply last_task_none in EL. rewrite EL in Ia. destruct Ia.
    - assert (exists x, last_write (wr_of (tasks s) false) (look (reg s) k) = Some x /\ (a = x \/ before (look (reg s) k) a x)) as (x & EL & D).
      { assert (W' : wr_of (tasks s) false a = true \/ exists x, before (look (reg s) k) a x /\ wr_of (tasks s) false x = true).
        { destruct W as [W|[W Pa]]; auto. destruct (wr_of (tasks s) false a) eqn:Wa; [left; reflexivity|right]. eapply C; eauto. }
        assert (exists y, last_write (wr_of (tasks s) false) (look (reg s) k) = Some y) as (y & EL).
        { destruct (last_write (wr_of (tasks s) false) (look (reg s) k)) as [y|] eqn:EL; [eauto|].
          destruct W' as [W'|(x & B & W')].
          - rewrite (last_write_none _ _ EL a Ia) in W'. discriminate.
          - apply before_in in B. rewrite (last_write_none _ _ EL x (proj2 B)) in W'. discriminate. }
        exists y; split; auto. destruct (last_write_some _ _ _ EL) as (_ & l1 & l2 & E1 & E2).
        destruct W' as [W'|(x & B & W')].
        - rewrite E1 in Ia |- *. apply in_app_iff in Ia. destruct Ia as [Ia|[Ia|Ia]]; auto.
          * right. apply in_split in Ia. destruct Ia as (m1 & m2 & ->). exists m1, m2, l2. rewrite <- app_assoc; auto.
          * rewrite E2 in W' by auto. discriminate.
        - rewrite E1 in B |- *. destruct B as (m1 & m2 & m3 & E3).
          assert (NI : ~ In x l2) by (intro Y; rewrite E2 in W' by auto; discriminate).
          assert (Ia' : a = y \/ In a l1).
          { clear - E3 NI. revert m1 E3; induction l1 as [|z l1 IH]; intros m1 E3.
            - destruct m1 as [|q m1]; cbn in E3; inversion E3; auto. exfalso; apply NI. subst.
              apply in_or_app; right; right. apply in_or_app; right; left; auto.
            - destruct m1 as [|q m1]; cbn in E3; inversion E3; subst; cbn; auto.
              destruct (IH m1); auto. }
          destruct Ia' as [->|Ia']; auto. right. apply in_split in Ia'. destruct Ia' as (n1 & n2 & ->).
          exists n1, n2, l2. rewrite <- app_assoc. auto. }
      rewrite EL in P. destruct D as [->|D]; [eapply reach1; eauto|].
      destruct (Nat.eq_dec a x) as [->|N]; [eapply reach1; eauto|].
      eapply reach2; [exact NEW|exact P|]. eapply reach_extends; [exact X|]. eapply inv_chain; eauto. }
  assert (OLD : forall i t, nth_error (tasks s ++ [mkT w ks ps Waiting false]) i = Some t ->
            (i < length (tasks s) /\ nth_error (tasks s) i = Some t) \/ (i = length (tasks s) /\ t = mkT w ks ps Waiting false)).
  { intros i t Hi. destruct (Nat.lt_ge_cases i (length (tasks s))) as [Li|Li].
    - rewrite nth_error_app1 in Hi by auto; auto.
    - rewrite nth_error_app2 in Hi by auto. destruct (i - length (tasks s)) as [|n] eqn:Ei.
      + cbn in Hi. inversion Hi. right; split; auto; lia.
      + destruct n; discriminate. }
  constructor; cbn [tasks reg].
  - auto.
  - intros k i Hi. rewrite L in Hi. apply in_app_iff in Hi. destruct Hi as [Hi|Hi].
    + destruct (inv_reg s I _ _ Hi) as (t & Ht & Ik). exists t; split; auto.
      rewrite nth_error_app1; auto. apply nth_error_Some; congruence.
    + pose proof (repeat_spec _ _ _ Hi); subst i. exists (mkT w ks ps Waiting false); split; auto. cbn.
      destruct (in_dec K_dec k ks); auto. rewrite count_key_notin in Hi; auto. destruct Hi.
  - intros i t Hi U k. rewrite L, count_occ_app. destruct (OLD _ _ Hi) as [[Li Ht]|[-> ->]].
    + rewrite (inv_pending s I _ _ Ht U k). replace (count_occ _ (repeat _ _) i) with 0; [lia|].
      symmetry; apply count_occ_not_In. intro Y; apply repeat_spec in Y; lia.
    + cbn [t_keys]. replace (count_occ Nat.eq_dec (look (reg s) k) (length (tasks s))) with 0.
      * cbn. clear. induction (count_key k ks); cbn; auto. destruct (Nat.eq_dec _ _); congruence.
      * symmetry; apply count_occ_not_In. intro Y; apply LT in Y; lia.
  - intros k a b B N W. rewrite L in B. apply before_count in B; auto. destruct B as [B|(-> & Ia & Nz)].
    + eapply reach_extends; [exact X|]. assert (La : a < length (tasks s)) by (eapply LT; apply (before_in _ _ _ B)).
      eapply inv_chain; eauto. destruct W as [W|[W (t & Ht & Ut)]].
      * left. rewrite wr_of_app in W; auto.
      * right; split; auto. exists t; split; auto. rewrite nth_error_app1 in Ht; auto.
    + apply (RCH k); auto.
      * destruct (in_dec K_dec k ks); auto. rewrite count_key_notin in Nz; auto. congruence.
      * assert (La : a < length (tasks s)) by eauto. destruct W as [W|[W (t & Ht & Ut)]].
        -- left. rewrite wr_of_app in W; eauto.
        -- right; split; auto. exists t; split; auto. rewrite nth_error_app1 in Ht; auto.
  - intros b t Hb St p Ip. destruct (OLD _ _ Hb) as [[Li Ht]|[-> ->]].
    + pose proof (inv_prev s I _ _ Ht St p Ip) as R. unfold is_resolved in *.
      destruct (nth_error (tasks s) p) eqn:Ep; [|discriminate].
      rewrite nth_error_app1; [rewrite Ep; auto|]. apply nth_error_Some; congruence.
    + cbn in St. destruct St; discriminate.
  - intros a b ta tb k Ha Hb Lab Ka Kb W. destruct (OLD _ _ Ha) as [[La Hta]|[-> ->]].
    + destruct (OLD _ _ Hb) as [[Lb Htb]|[-> ->]].
      * destruct (inv_order s I _ _ _ _ _ Hta Htb Lab Ka Kb W) as [?|R]; auto.
        right; eapply reach_extends; eauto.
      * destruct (t_status ta) eqn:St; try (left; unfold settled; tauto).
        -- right. apply (RCH k); auto.
           ++ apply (count_occ_In Nat.eq_dec). rewrite (inv_pending s I _ _ Hta).
              ** destruct (count_key_in k (t_keys ta) Ka) as (n & ->). lia.
              ** unfold settled; rewrite St; intuition discriminate.
           ++ unfold wr_of. rewrite Hta. destruct W as [W|[W _]]; auto. right; split; auto.
              exists ta; split; auto. unfold settled; rewrite St; intuition discriminate.
        -- right. apply (RCH k); auto.
           ++ apply (count_occ_In Nat.eq_dec). rewrite (inv_pending s I _ _ Hta).
              ** destruct (count_key_in k (t_keys ta) Ka) as (n & ->). lia.
              ** unfold settled; rewrite St; intuition discriminate.
           ++ unfold wr_of. rewrite Hta. destruct W as [W|[W _]]; auto. right; split; auto.
              exists ta; split; auto. unfold settled; rewrite St; intuition discriminate.
    + assert (b < length (tasks s ++ [mkT w ks ps Waiting false])) by (apply nth_error_Some; congruence).
      rewrite app_length in *; cbn in *; lia.
  - intros i t Hi. destruct (OLD _ _ Hi) as [[Li Ht]|[-> ->]]; auto. eapply inv_ctx; eauto.
Qed.

(** a task changes its status, possibly leaving some lists *)
Lemma inv_status : forall s i t st r, inv s -> nth_error (tasks s) i = Some t -> ~ settled t ->
  (st = Running /\ (forall p, In p (t_prev t) -> is_resolved (tasks s) p = true) /\ r = reg s \/
   st = Rejected /\ keys_nodup r /\ (forall k, shrinks i (look (reg s) k) (look r k)) \/
   st = Resolved /\ t_status t = Running /\ keys_nodup r /\ (forall k, shrinks i (look (reg s) k) (look r k))) ->
  inv (mkS (tasks (set_status s i st)) r).
Proof.
  intros s i t st r I Ht U D. unfold set_status. rewrite Ht. cbn [tasks].
  set (t' := mkT (t_write t) (t_keys t) (t_prev t) st (t_cancelled t)).
  assert (Li : i < length (tasks s)) by (apply nth_error_Some; congruence).
  assert (X : extends (tasks s) (upd (tasks s) i t')) by (eapply extends_upd; eauto; repeat split).
  assert (NTH : forall j, nth_error (upd (tasks s) i t') j = if Nat.eqb j i then Some t' else nth_error (tasks s) j).
  { intros; apply nth_upd; auto. }
  assert (WR : forall w j, wr_of (upd (tasks s) i t') w j = wr_of (tasks s) w j).
  { intros w j. unfold wr_of. rewrite NTH. destruct (Nat.eqb_spec j i) as [->|]; auto. rewrite Ht; auto. }
  assert (SH : forall k, shrinks i (look (reg s) k) (look r k)).
  { destruct D as [(_ & _ & ->)|[(_ & _ & D)|(_ & _ & _ & D)]]; auto. intros; apply shrinks_refl. }
  assert (NR : is_resolved (tasks s) i = false).
  { unfold is_resolved. rewrite Ht. destruct (t_status t) eqn:E; auto. exfalso; apply U; left; auto. }
  assert (RES : forall j, is_resolved (tasks s) j = true -> is_resolved (upd (tasks s) i t') j = true).
  { intros j. unfold is_resolved. rewrite NTH. destruct (Nat.eqb_spec j i) as [->|]; auto.
    fold (is_resolved (tasks s) i). rewrite NR. discriminate. }
  constructor; cbn [tasks reg].
  - destruct D as [(_ & _ & ->)|[(_ & D & _)|(_ & _ & D & _)]]; auto. apply (inv_nodup s I).
  - intros k j Hj. destruct (SH k) as (_ & S2 & _). apply S2 in Hj.
    destruct (inv_reg s I _ _ Hj) as (u & Hu & Ku). rewrite NTH. destruct (Nat.eqb_spec j i) as [->|]; eauto.
    exists t'; split; auto. cbn. congruence.
  - intros j u Hj Uj k. destruct (SH k) as (_ & _ & S3). rewrite NTH in Hj. destruct (Nat.eqb_spec j i) as [->|N].
    + inversion Hj; subst u. destruct D as [(-> & _ & ->)|[(-> & _)|(-> & _)]].
      * cbn. apply (inv_pending s I _ _ Ht U).
      * exfalso; apply Uj; right; auto.
      * exfalso; apply Uj; left; auto.
    + rewrite S3 by auto. eapply inv_pending; eauto.
  - intros k a b B N W. destruct (SH k) as (S1 & _). rewrite WR in W. eapply reach_extends; [exact X|]. eapply inv_chain; eauto.
    destruct W as [W|[W (u & Hu & Uu)]]; auto. right; split; auto. rewrite NTH in Hu.
    destruct (Nat.eqb_spec a i) as [->|]; [exists t; auto|exists u; auto].
  - intros b u Hb St p Ip. apply RES. rewrite NTH in Hb. destruct (Nat.eqb_spec b i) as [->|N].
    + inversion Hb; subst u. cbn in St, Ip. destruct D as [(_ & D & _)|[(-> & _)|(-> & D & _)]]; auto.
      * destruct St; discriminate.
      * eapply inv_prev; eauto.
    + eapply inv_prev; eauto.
  - intros a b ta tb k Ha Hb Lab Ka Kb W.
    assert (A : exists ta0, nth_error (tasks s) a = Some ta0 /\ same ta0 ta /\ (settled ta0 -> settled ta)).
    { rewrite NTH in Ha. destruct (Nat.eqb_spec a i) as [->|]; [|exists ta; repeat split; auto].
      inversion Ha; subst ta. exists t; repeat split; auto. tauto. }
    assert (B : exists tb0, nth_error (tasks s) b = Some tb0 /\ same tb0 tb).
    { rewrite NTH in Hb. destruct (Nat.eqb_spec b i) as [->|]; [|exists tb; repeat split; auto].
      inversion Hb; subst tb. exists t; repeat split; auto. }
    destruct A as (ta0 & Ha0 & (A1 & A2 & A3) & A4). destruct B as (tb0 & Hb0 & (B1 & B2 & B3)).
    rewrite A2 in Ka; rewrite B2 in Kb; rewrite A1, B1 in W.
    destruct (inv_order s I _ _ _ _ _ Ha0 Hb0 Lab Ka Kb W) as [?|R]; auto.
    right; eapply reach_extends; eauto.
  - intros j u Hj. rewrite NTH in Hj. destruct (Nat.eqb_spec j i) as [->|N].
    + inversion Hj; subst u. cbn. eapply inv_ctx; eauto.
    + eapply inv_ctx; eauto.
Qed.

Lemma mkS_eta : forall s : state, mkS (tasks s) (reg s) = s.
Proof. destruct s; auto. Qed.
Lemma reg_set_status : forall (s : state) i st, reg (set_status s i st) = reg s.
Proof. intros. unfold set_status. destruct (nth_error (tasks s) i); auto. Qed.

Lemma inv_step : forall s e s', inv s -> calm_event s e -> step s e = Some s' -> inv s'.
Proof.
  intros s e s' I C H. destruct e as [w ks|i|i|i|i|i|i].
  - eapply inv_sched; eauto.
  - cbn [SchedModel.step] in H. destruct (nth_error (tasks s) i) as [t|] eqn:Ht; [|discriminate].
    destruct (t_status t) eqn:St; try discriminate.
    rewrite (inv_ctx s I _ _ Ht) in H. cbn [orb] in H.
    destruct (forallb (is_resolved (tasks s)) (t_prev t)) eqn:F; [|discriminate]. inversion H; subst.
    rewrite <- (mkS_eta (set_status s i Running)), reg_set_status. eapply inv_status; eauto.
    + unfold settled; rewrite St; intuition discriminate.
    + left; repeat split; auto. rewrite forallb_forall in F. auto.
  - cbn [SchedModel.step] in H. destruct (nth_error (tasks s) i) as [t|] eqn:Ht; [|discriminate].
    destruct (t_status t) eqn:St; try discriminate.
    destruct (unregister_all K_dec i (reg s) (t_keys t)) as [r ok] eqn:E. inversion H; subst.
    destruct (unregister_all_shrinks _ _ _ _ _ (inv_nodup s I) E) as [ND SH].
    eapply inv_status; eauto.
    + unfold settled; rewrite St; intuition discriminate.
    + destruct ok; auto 10.
  - cbn [SchedModel.step] in H. destruct (nth_error (tasks s) i) as [t|] eqn:Ht; [|discriminate].
    destruct (t_status t) eqn:St; try discriminate.
    destruct (unregister_all K_dec i (reg s) (t_keys t)) as [r ok] eqn:E. inversion H; subst.
    destruct (unregister_all_shrinks _ _ _ _ _ (inv_nodup s I) E) as [ND SH].
    eapply inv_status; eauto.
    unfold settled; rewrite St; intuition discriminate.
  - cbn [SchedModel.step] in H. destruct (nth_error (tasks s) i) as [t|] eqn:Ht; [|discriminate].
    destruct (t_status t) eqn:St; try discriminate. inversion H; subst.
    rewrite <- (mkS_eta (set_status s i Rejected)), reg_set_status. eapply inv_status; eauto.
    + unfold settled; rewrite St; intuition discriminate.
    + right; left; repeat split; auto. apply (inv_nodup s I).
  - cbn [SchedModel.step] in H. destruct (nth_error (tasks s) i) as [t|] eqn:Ht; [|discriminate].
    destruct (t_status t) eqn:St; try discriminate.
    destruct (existsb (is_rejected (tasks s)) (t_prev t)) eqn:F; [|discriminate]. inversion H; subst.
    rewrite <- (mkS_eta (set_status s i Rejected)), reg_set_status. eapply inv_status; eauto.
    + unfold settled; rewrite St; intuition discriminate.
    + right; left; repeat split; auto. apply (inv_nodup s I).
  - destruct C.
Qed.

Lemma inv_init : inv init.
Proof.
  constructor; cbn [tasks reg init].
  - constructor.
  - intros k i [].
  - intros [|i] t H; discriminate.
  - intros k a b B. apply before_in in B. destruct B as [[] _].
  - intros [|b] t H; discriminate.
  - intros [|a] b ta tb k H; discriminate.
  - intros [|i] t H; discriminate.
Qed.

Lemma inv_run : forall tr s s', inv s -> calm s tr -> run s tr = Some s' -> inv s'.
Proof.
  induction tr as [|e tr IH]; intros s s' I C H; cbn in H.
  - inversion H; subst; auto.
  - destruct (step s e) as [s1|] eqn:E; [|discriminate]. cbn in C. rewrite E in C. destruct C.
    eapply IH; [|eassumption|eassumption]. eapply inv_step; eauto.
Qed.

End Proofs.
