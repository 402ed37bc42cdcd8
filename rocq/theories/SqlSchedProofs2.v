(** Proofs about the schedulers of the SQL store: operations on objects. *)
From Coq Require Import String.
From Verif Require Import Base SchedModel SchedProofs SqlSchedModel SqlSchedSpec SqlSchedProofs.
Open Scope nat_scope.

(** ** The keys of an operation *)
Definition name_key (c : call) : key :=
  match c_object c with None => (None, None) | Some o => (Some o, c_feature c) end.

Definition lof_covers (lof k : key) : Prop :=
  match lof, k with
  | (None, _), (None, Some _) => False
  | (None, _), _ => True
  | (Some o, None), (o', _) => o' = Some o
  | (Some o, Some f), _ => k = (Some o, Some f)
  end.

Lemma in_features : forall r o f, In (Some o, Some f) (features_of r o) <-> In (Some o, Some f) (map fst r).
Proof.
  intros. unfold features_of. rewrite filter_In. unfold is_obj. cbn. rewrite Nat.eqb_refl. cbn. intuition.
Qed.
Lemma in_objects : forall r o f, In (Some o, f) (map fst r) -> In o (objects_of r).
Proof.
  intros. unfold objects_of. apply nodup_In. apply in_flat_map. exists (Some o, f); split; auto. cbn; auto.
Qed.

Lemma objectFeatures_covers : forall r lof k, In k (map fst r) -> lof_covers lof k -> In k (objectFeatures r lof).
Proof.
  intros r [[o|] [f|]] [[o'|] [f'|]] H C; cbn in C; try contradiction; try discriminate; cbn [objectFeatures].
  - rewrite C; cbn; auto.
  - inversion C; subst. right. apply in_features; auto.
  - inversion C; subst. left; auto.
  - right. apply in_flat_map. exists o'; split; [eapply in_objects; eauto|]. right. apply in_features; auto.
  - right. apply in_flat_map. exists o'; split; [eapply in_objects; eauto|]. left; auto.
  - left; auto.
  - right. apply in_flat_map. exists o'; split; [eapply in_objects; eauto|]. right. apply in_features; auto.
  - right. apply in_flat_map. exists o'; split; [eapply in_objects; eauto|]. left; auto.
  - left; auto.
Qed.

Lemma registered_covers : forall wr w i lofs r k, In k (map fst r) -> (exists lof, In lof lofs /\ lof_covers lof k) ->
  In k (registered wr w i r lofs).
Proof.
  intros wr w i lofs; induction lofs as [|l lofs IH]; intros r k H (lof & I & C); [destruct I|].
  cbn [registered]. apply in_or_app. destruct I as [->|I].
  - left. apply objectFeatures_covers; auto.
  - right. apply IH; eauto. apply register_all_has; auto.
Qed.

Lemma registered_name : forall wr w i r c, In (name_key c) (registered wr w i r (allObjectFeatures c)).
Proof.
  intros. unfold allObjectFeatures. cbn [registered]. apply in_or_app; left. unfold name_key.
  destruct (c_object c), (c_feature c); cbn; auto.
Qed.

Lemma within_covered : forall ca cb, within ca cb -> exists lof, In lof (allObjectFeatures cb) /\ lof_covers lof (name_key ca).
Proof.
  intros ca cb H. unfold within in H. unfold name_key, allObjectFeatures.
  assert (OBJ : forall o f, covers_object cb o -> exists lof, In lof (allObjectFeatures cb) /\ lof_covers lof (Some o, f)).
  { intros o f [E|[[E1 E2]|[[E1 E2]|[E1 E2]]]]; unfold allObjectFeatures.
    - exists (None, c_feature cb). rewrite E. cbn. auto.
    - exists (Some o, None). rewrite E1, E2. cbn; auto.
    - exists (Some o, None). split; [|cbn; auto]. right. apply in_or_app; left.
      destruct (c_object cb); [|congruence]. apply in_map_iff. eauto.
    - exists (Some o, None). split; [|cbn; auto]. right. apply in_or_app; right. rewrite E1.
      destruct (c_object cb) as [q|]; cbn; auto. destruct (Nat.eqb_spec o q); subst; cbn; auto; congruence. }
  destruct (c_object ca) as [o|].
  - destruct (c_feature ca) as [f|].
    + destruct H as [[E1 E2]|H]; [|apply (OBJ o (Some f)); auto].
      exists (Some o, Some f). rewrite E1, E2. cbn; auto.
    + apply (OBJ o None); auto.
  - exists (None, c_feature cb). rewrite H. cbn; auto.
Qed.

(** ** Reachable states of the store *)
Section Store.
Variable default : nat -> value.
Notation sstep := (sstep default).
Notation srun := (srun default).
Variable c : key -> bool.

Record sinv (s : store) : Prop := {
  s_inv : inv key_dec c (sch s);
  s_len : length (calls s) = length (tasks (sch s));
  s_write : forall i ci t, nth_error (calls s) i = Some ci -> nth_error (tasks (sch s)) i = Some t -> t_write t = c_write ci;
  s_name : forall i ci t, nth_error (calls s) i = Some ci -> nth_error (tasks (sch s)) i = Some t -> In (name_key ci) (t_keys t);
  s_within : forall a b ca cb ta tb, a < b -> nth_error (calls s) a = Some ca -> nth_error (calls s) b = Some cb ->
    nth_error (tasks (sch s)) a = Some ta -> nth_error (tasks (sch s)) b = Some tb -> within ca cb ->
    settled ta \/ In (name_key ca) (t_keys tb) }.

Definition scalm_event (s : store) (e : sevent) : Prop :=
  match e with
  | SCall cl => calm_event key_dec c (sch s) (sched_event s cl)
  | STimeout _ => False
  | _ => True
  end.
Definition scalm := along default scalm_event.

Lemma with_sch_some : forall s x s', with_sch s x = Some s' -> exists y, x = Some y /\ s' = mkStore y (calls s) (cells s) (results s) (executed s).
Proof. intros s [y|] s' H; inversion H; eauto. Qed.

(** events of the store other than calls *)
Lemma sinv_other : forall s e y, sinv s -> calm_event key_dec c (sch s) e -> is_call e = false -> step key_dec (sch s) e = Some y ->
  sinv (mkStore y (calls s) (cells s) (results s) (executed s)).
Proof.
  intros s e y I C N H.
  pose proof (step_extends key_dec _ _ _ H) as X. pose proof (step_length key_dec _ _ _ H) as L. rewrite N in L.
  assert (BACK : forall i t, nth_error (tasks y) i = Some t -> exists t0, nth_error (tasks (sch s)) i = Some t0 /\ same t0 t).
  { intros i t Hi. destruct (nth_error (tasks (sch s)) i) as [t0|] eqn:E.
    - destruct (X _ _ E) as (t1 & H1 & S). rewrite Hi in H1. inversion H1; subst. eauto.
    - apply nth_error_None in E. assert (i < length (tasks y)) by (apply nth_error_Some; congruence). lia. }
  constructor; cbn [sch calls].
  - eapply inv_step; eauto. apply (s_inv s I).
  - rewrite (s_len s I). lia.
  - intros i ci t Hc Ht. destruct (BACK _ _ Ht) as (t0 & H0 & S1 & _). rewrite S1. exact (s_write s I _ _ _ Hc H0).
  - intros i ci t Hc Ht. destruct (BACK _ _ Ht) as (t0 & H0 & _ & S2 & _). rewrite S2. exact (s_name s I _ _ _ Hc H0).
  - intros a b ca cb ta tb Lab Ha Hb Hta Htb W.
    destruct (BACK _ _ Hta) as (ta0 & Ha0 & _). destruct (BACK _ _ Htb) as (tb0 & Hb0 & _ & S2 & _).
    destruct (s_within s I _ _ _ _ _ _ Lab Ha Hb Ha0 Hb0 W) as [S|K].
    + destruct (step_settled key_dec _ _ _ _ _ H Ha0 S) as (t' & Ht' & St). rewrite Hta in Ht'. inversion Ht'; subst.
      left. unfold settled. rewrite St. exact S.
    + right. rewrite S2; auto.
Qed.

Lemma sinv_step : forall s e s', sinv s -> scalm_event s e -> sstep s e = Some s' -> sinv s'.
Proof.
  intros s e s' I C H. destruct e; cbn [SqlSchedModel.sstep] in H.
  - destruct (step key_dec (sch s) (sched_event s c0)) as [y|] eqn:E; [|discriminate]. inversion H; subst s'; clear H.
    cbn [scalm_event] in C.
    pose proof (step_extends key_dec _ _ _ E) as X. pose proof (step_length key_dec _ _ _ E) as L. cbn in L.
    assert (I' : inv key_dec c y) by (eapply inv_step; eauto; apply (s_inv s I)).
    unfold sched_event in E. cbn [step] in E.
    set (ks := registered _ _ _ _ (allObjectFeatures c0)) in E.
    destruct (register_all _ _ _ _ _ ks) as [r ps]. inversion E; subst y; clear E. cbn [tasks] in *.
    assert (OLD : forall i t, nth_error (tasks (sch s) ++ [mkT (c_write c0) ks ps Waiting false]) i = Some t ->
            (i < length (tasks (sch s)) /\ nth_error (tasks (sch s)) i = Some t) \/ (i = length (tasks (sch s)) /\ t = mkT (c_write c0) ks ps Waiting false)).
    { intros i t Hi. destruct (Nat.lt_ge_cases i (length (tasks (sch s)))) as [Li|Li].
      - rewrite nth_error_app1 in Hi by auto; auto.
      - rewrite nth_error_app2 in Hi by auto. destruct (i - length (tasks (sch s))) as [|n] eqn:Ei.
        + cbn in Hi. inversion Hi. right; split; auto; lia.
        + destruct n; discriminate. }
    assert (OLDC : forall i ci, nth_error (calls s ++ [c0]) i = Some ci ->
            (i < length (tasks (sch s)) /\ nth_error (calls s) i = Some ci) \/ (i = length (tasks (sch s)) /\ ci = c0)).
    { intros i t Hi. rewrite <- (s_len s I). destruct (Nat.lt_ge_cases i (length (calls s))) as [Li|Li].
      - rewrite nth_error_app1 in Hi by auto; auto.
      - rewrite nth_error_app2 in Hi by auto. destruct (i - length (calls s)) as [|n] eqn:Ei.
        + cbn in Hi. inversion Hi. right; split; auto; lia.
        + destruct n; discriminate. }
    constructor; cbn [sch calls tasks].
    + auto.
    + rewrite !app_length, (s_len s I). auto.
    + intros i ci t Hc Ht. destruct (OLDC _ _ Hc) as [[L1 Hc1]|[-> ->]]; destruct (OLD _ _ Ht) as [[L2 Ht1]|[E2 Et]]; try lia.
      * exact (s_write s I _ _ _ Hc1 Ht1).
      * subst t. auto.
    + intros i ci t Hc Ht. destruct (OLDC _ _ Hc) as [[L1 Hc1]|[-> ->]]; destruct (OLD _ _ Ht) as [[L2 Ht1]|[E2 Et]]; try lia.
      * exact (s_name s I _ _ _ Hc1 Ht1).
      * subst t. cbn. apply registered_name.
    + intros a b ca cb ta tb Lab Ha Hb Hta Htb W.
      destruct (OLDC _ _ Hb) as [[L1 Hb1]|[-> ->]]; destruct (OLD _ _ Htb) as [[L2 Htb1]|[E2 Et]]; try lia.
      * destruct (OLDC _ _ Ha) as [[L3 Ha1]|[-> ->]]; [|lia]. destruct (OLD _ _ Hta) as [[L4 Hta1]|[E4 Et4]]; [|lia].
        exact (s_within s I _ _ _ _ _ _ Lab Ha1 Hb1 Hta1 Htb1 W).
      * destruct (OLDC _ _ Ha) as [[L3 Ha1]|[-> ->]]; [|lia]. destruct (OLD _ _ Hta) as [[L4 Hta1]|[E4 Et4]]; [|lia].
        subst tb. cbn [t_keys].
        destruct (t_status ta) eqn:St; try (left; unfold settled; tauto); right; unfold ks;
        (apply registered_covers; [|apply within_covered; auto];
         apply (look_in key_dec _ _ a); apply (count_occ_In Nat.eq_dec);
         rewrite (inv_pending key_dec c _ (s_inv s I) _ _ Hta1);
         [destruct (count_key_in key_dec (name_key ca) (t_keys ta) (s_name s I _ _ _ Ha1 Hta1)) as (n & ->); lia
         |unfold settled; rewrite St; intuition discriminate]).
  - apply with_sch_some in H. destruct H as (y & H & ->). eapply sinv_other; eauto; cbn; auto.
  - destruct (status_of s i) as [[]|]; try discriminate. destruct (nth_error (calls s) i) as [ci|]; [|discriminate].
    destruct (has i (executed s)); [discriminate|]. inversion H; subst s'.
    assert (F : sch (effect default s i ci) = sch s /\ calls (effect default s i ci) = calls s).
    { unfold effect. destruct (c_object ci), (c_feature ci), (c_cmd ci); auto. }
    destruct F as [F1 F2]. destruct I. constructor; rewrite F1, ?F2; auto.
  - destruct (has i (executed s)); [|discriminate].
    apply with_sch_some in H. destruct H as (y & H & ->). eapply sinv_other; eauto; cbn; auto.
  - apply with_sch_some in H. destruct H as (y & H & ->). eapply sinv_other; eauto; cbn; auto.
  - apply with_sch_some in H. destruct H as (y & H & ->). eapply sinv_other; eauto; cbn; auto.
  - apply with_sch_some in H. destruct H as (y & H & ->). eapply sinv_other; eauto; cbn; auto.
  - destruct C.
Qed.

Lemma sinv_init : sinv (store_init default).
Proof.
  constructor; cbn [sch calls store_init tasks init]; auto.
  - apply inv_init.
  - intros [|i] ci t H; discriminate.
  - intros [|i] ci t H; discriminate.
  - intros a [|b] ca cb ta tb L Ha Hb; discriminate.
Qed.

Lemma sinv_run : forall tr s s', sinv s -> scalm s tr -> srun s tr = Some s' -> sinv s'.
Proof.
  induction tr as [|e tr IH]; intros s s' I C H; cbn [SqlSchedModel.srun] in H.
  - inversion H; subst; auto.
  - destruct (sstep s e) as [s1|] eqn:E; [|discriminate]. unfold scalm in C. cbn [along] in C. rewrite E in C. destruct C as [C1 C2].
    eapply IH; [|exact C2|exact H]. eapply sinv_step; eauto.
Qed.

Lemma status_task : forall s i st, status_of s i = Some st <-> exists t, nth_error (tasks (sch s)) i = Some t /\ t_status t = st.
Proof.
  intros s i st. unfold status_of. destruct (nth_error (tasks (sch s)) i) as [t|]; cbn; split.
  - intros H; inversion H; eauto.
  - intros (t' & H & E). inversion H; subst; auto.
  - discriminate.
  - intros (t' & H & _); discriminate.
Qed.
Lemma ended_task : forall s i t, nth_error (tasks (sch s)) i = Some t -> (ended s i <-> settled t).
Proof.
  intros s i t H. unfold ended, succeeded, failed, status_of, settled. rewrite H. cbn. split; intros [E|E].
  - inversion E; auto.
  - inversion E; auto.
  - rewrite E; auto.
  - rewrite E; auto.
Qed.
Lemma called_task : forall s i ci, sinv s -> called s i ci -> exists t, nth_error (tasks (sch s)) i = Some t.
Proof.
  intros s i ci I H. destruct (nth_error (tasks (sch s)) i) eqn:E; eauto. apply nth_error_None in E.
  rewrite <- (s_len s I) in E. unfold called in H. assert (i < length (calls s)) by (apply nth_error_Some; congruence). lia.
Qed.

Lemma within_ordered : forall s a b ca cb, sinv s -> a < b -> called s a ca -> called s b cb -> within ca cb ->
  c_write ca = true \/ (c (name_key ca) = true /\ c_write cb = true) ->
  executing s b \/ succeeded s b -> ended s a.
Proof.
  intros s a b ca cb I L Ha Hb W Wr St.
  destruct (called_task _ _ _ I Ha) as (ta & Hta). destruct (called_task _ _ _ I Hb) as (tb & Htb).
  rewrite (ended_task _ _ _ Hta).
  destruct (s_within s I _ _ _ _ _ _ L Ha Hb Hta Htb W) as [?|K]; auto.
  eapply (inv_ordered key_dec c (sch s) a b ta tb (name_key ca)); eauto.
  - apply (s_inv s I).
  - eapply s_name; eauto.
  - rewrite (s_write s I _ _ _ Ha Hta), (s_write s I _ _ _ Hb Htb). auto.
  - unfold executing, succeeded in St. rewrite !status_task in St. destruct St as [(t & H1 & H2)|(t & H1 & H2)]; rewrite Htb in H1; inversion H1; subst; auto.
Qed.

Lemma on_within : forall ca cb o f, on ca o f -> on cb o f -> within ca cb.
Proof. intros ca cb o f [A1 A2] [B1 B2]. unfold within, covers, on. rewrite A1, A2. auto. Qed.

End Store.

(** executions without timeout *)
Lemma no_timeout_scalm : forall default tr s, no_timeout tr -> scalm default (fun _ => false) s tr.
Proof.
  intros d; induction tr as [|e tr IH]; intros s H; cbn; auto.
  split.
  - destruct e; cbn; auto. destruct (c_write c); cbn; auto. intros; discriminate.
  - destruct (SqlSchedModel.sstep d s e); auto. apply IH. destruct e; cbn in H; auto; destruct H.
Qed.

Lemma along_impl : forall default (P Q : store -> sevent -> Prop) (J : store -> Prop) tr s,
  J s -> (forall s e s', J s -> P s e -> Q s e /\ (sstep default s e = Some s' -> J s')) -> along default P s tr -> along default Q s tr.
Proof.
  intros d P Q J; induction tr as [|e tr IH]; intros s Js H A; cbn in *; auto. destruct A as [A1 A2]. split.
  - apply (H s e s Js A1).
  - destruct (sstep d s e) as [s1|] eqn:E; auto. apply IH; auto. eapply H; eauto.
Qed.

Lemma along_and : forall default (P Q : store -> sevent -> Prop) tr s,
  along default P s tr -> along default Q s tr -> along default (fun s e => P s e /\ Q s e) s tr.
Proof.
  intros d P Q; induction tr as [|e tr IH]; intros s A B; cbn in *; auto. destruct A as [A1 A2], B as [B1 B2].
  split; auto. destruct (sstep d s e); auto.
Qed.

Lemma no_timeout_along : forall default tr s, no_timeout tr -> along default (fun _ e => match e with STimeout _ => False | _ => True end) s tr.
Proof.
  intros d; induction tr as [|e tr IH]; intros s H; cbn; auto. split.
  - destruct e; cbn in *; auto.
  - destruct (sstep d s e); auto. apply IH. destruct e; cbn in H; auto; destruct H.
Qed.

Lemma one_read_scalm : forall default tr s, sinv (fun _ => true) s -> no_timeout tr -> one_read_at_a_time default s tr ->
  scalm default (fun _ => true) s tr.
Proof.
  intros d tr s I NT OR. unfold scalm.
  eapply (along_impl d _ _ (sinv (fun _ => true))); [exact I| |exact (along_and d _ _ _ _ OR (no_timeout_along d tr s NT))].
  intros s0 e s' I0 [A B].
  assert (C : scalm_event (fun _ => true) s0 e).
  { destruct e; cbn; auto. destruct (c_write c) eqn:W; cbn; auto.
    intros k _ _ a Ia (t & Ht & Ut) Wa. exfalso. apply Ut.
    assert (exists ca, called s0 a ca) as (ca & Ca).
    { unfold called. destruct (nth_error (calls s0) a) eqn:E; eauto. apply nth_error_None in E. rewrite (s_len _ _ I0) in E.
      assert (a < length (tasks (sch s0))) by (apply nth_error_Some; congruence). lia. }
    rewrite <- (ended_task s0 a t Ht). apply (A eq_refl a ca Ca).
    rewrite <- (s_write _ _ I0 _ _ _ Ca Ht). unfold wr_of in Wa. rewrite Ht in Wa. auto. }
  split; auto. intros H. eapply sinv_step; eauto.
Qed.
