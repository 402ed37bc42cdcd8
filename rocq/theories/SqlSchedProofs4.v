(** Proofs about the schedulers of the SQL store: the values of single-valued features, SQL statements. *)
From Coq Require Import String.
From Verif Require Import Base SchedModel SchedProofs SqlSchedModel SqlSchedSpec SqlSchedProofs SqlSchedProofs2 SqlSchedProofs3.
Open Scope nat_scope.

(** ** The specification [last_set] *)
Definition is_set (c : call) (o f : nat) : bool :=
  match c_cmd c, c_object c, c_feature c with
  | CSet, Some o', Some f' => Nat.eqb o' o && Nat.eqb f' f
  | _, _, _ => false
  end.
Lemma last_set_app : forall cs1 cs2 o f v, last_set (cs1 ++ cs2) o f v = last_set cs2 o f (last_set cs1 o f v).
Proof. induction cs1; intros; cbn; auto. Qed.
Lemma last_set_one : forall c o f v, last_set [c] o f v = if is_set c o f then c_value c else v.
Proof. intros. cbn. unfold is_set. destruct (c_cmd c); auto. destruct (c_object c); auto. destruct (c_feature c); auto. Qed.
Lemma last_set_none : forall cs o f v, (forall c, In c cs -> is_set c o f = false) -> last_set cs o f v = v.
Proof.
  induction cs as [|c cs IH]; intros o f v H; auto. change (c :: cs) with ([c] ++ cs). rewrite last_set_app, last_set_one.
  rewrite H by (cbn; auto). apply IH. intros; apply H; cbn; auto.
Qed.
Lemma firstn_nth : forall {A} (l : list A) n x, nth_error l n = Some x -> firstn (S n) l = firstn n l ++ [x].
Proof. intros A l; induction l as [|y l IH]; intros [|n] x H; cbn in *; inversion H; auto. rewrite <- (IH n x); auto. Qed.

Lemma last_set_between : forall cs o f v n m, n <= m -> (forall i c, n <= i < m -> nth_error cs i = Some c -> is_set c o f = false) ->
  last_set (firstn n cs) o f v = last_set (firstn m cs) o f v.
Proof.
  intros cs o f v n m L; induction L as [|m L IH]; intros H; auto.
  rewrite IH by (intros i c Hi; apply H; lia).
  destruct (nth_error cs m) as [c|] eqn:E.
  - rewrite (firstn_nth _ _ _ E), last_set_app, last_set_one. rewrite (H m c) by (auto; lia). auto.
  - apply nth_error_None in E. rewrite !firstn_all2 by lia. auto.
Qed.
Lemma last_set_same : forall cs o f v n m, (forall i c, nth_error cs i = Some c -> is_set c o f = true -> (i < n <-> i < m)) ->
  last_set (firstn n cs) o f v = last_set (firstn m cs) o f v.
Proof.
  intros cs o f v n m H. destruct (Nat.le_ge_cases n m) as [L|L].
  - apply last_set_between; auto. intros i c Hi Hc. destruct (is_set c o f) eqn:E; auto. specialize (H i c Hc E). lia.
  - symmetry. apply last_set_between; auto. intros i c Hi Hc. destruct (is_set c o f) eqn:E; auto. specialize (H i c Hc E). lia.
Qed.

Lemma is_set_on : forall c o f, is_set c o f = true <-> c_cmd c = CSet /\ on c o f.
Proof.
  intros c o f. unfold is_set, on. destruct (c_cmd c), (c_object c), (c_feature c); split; try (intros; discriminate); try (intros (A & B & C); discriminate).
  - rewrite andb_true_iff, !Nat.eqb_eq. intros [-> ->]; auto.
  - intros (_ & A & B). inversion A; inversion B. rewrite !Nat.eqb_refl. auto.
Qed.

Lemma has_in : forall i l, has i l = true <-> In i l.
Proof.
  intros. unfold has. rewrite existsb_exists. split.
  - intros (x & H & E). apply Nat.eqb_eq in E. subst; auto.
  - intros H. exists i; split; auto. apply Nat.eqb_refl.
Qed.

(** ** Keys of a feature come from calls that cover it *)
Lemma objectFeatures_inv : forall r lof o f, In (Some o, Some f) (objectFeatures r lof) ->
  fst lof = None \/ lof = (Some o, None) \/ lof = (Some o, Some f).
Proof.
  intros r [[q|] [g|]] o f H; cbn in H; auto.
  - destruct H as [H|[]]. inversion H; auto.
  - destruct H as [H|H]; [discriminate|]. apply features_obj in H. destruct H as [H _]. inversion H; auto.
Qed.
Lemma registered_inv : forall wr w i lofs r o f, In (Some o, Some f) (registered wr w i r lofs) ->
  exists lof, In lof lofs /\ (fst lof = None \/ lof = (Some o, None) \/ lof = (Some o, Some f)).
Proof.
  intros wr w i lofs; induction lofs as [|l lofs IH]; intros r o f H; cbn [registered] in H; [destruct H|].
  apply in_app_iff in H. destruct H as [H|H].
  - apply objectFeatures_inv in H. exists l; cbn; auto.
  - apply IH in H. destruct H as (lof & H1 & H2). exists lof; cbn; auto.
Qed.
Lemma registered_cover : forall wr w i r c o f, In (Some o, Some f) (registered wr w i r (allObjectFeatures c)) -> covers c o f.
Proof.
  intros wr w i r c o f H. apply registered_inv in H. destruct H as (lof & H1 & H2). unfold covers, covers_object, on.
  unfold allObjectFeatures in H1. destruct H1 as [<-|H1].
  - cbn in H2. destruct H2 as [H2|[H2|H2]]; auto; inversion H2; auto.
  - apply in_app_iff in H1. destruct H1 as [H1|H1].
    + destruct (c_object c) eqn:O; [|destruct H1]. apply in_map_iff in H1. destruct H1 as (x & <- & Hx). cbn in H2.
      destruct H2 as [H2|[H2|H2]]; inversion H2; subst. right. right. right. left. split; auto. discriminate.
    + destruct (c_value c) eqn:V; try destruct H1. destruct (c_object c) as [q|] eqn:O; auto.
      destruct (Nat.eqb_spec o0 q); [destruct H1|]. destruct H1 as [<-|[]]. cbn in H2.
      destruct H2 as [H2|[H2|H2]]; inversion H2; subst. right; right; right; right. split; auto. congruence.
Qed.

Section Store.
Variable default : nat -> value.
Notation sstep := (sstep default).
Notation srun := (srun default).
Notation sinv := (sinv (fun _ => true)).
Variables (o f : nat).

Definition good_call (c : call) : Prop :=
  typed_call c /\ (c_write c = true -> covers c o f -> c_cmd c = CSet /\ on c o f /\ c_index c = (-1)%Z).
Definition good_event (s : store) (e : sevent) : Prop :=
  scalm_event (fun _ => true) s e /\
  match e with SCall c => good_call c | STimeout _ | SErr _ | SPanic _ | SDep _ => False | _ => True end.

Record vinv (s : store) : Prop := {
  v_sinv : sinv s;
  v_clean : clean s;
  v_good : forall i c, called s i c -> good_call c;
  v_cover : forall i c t, called s i c -> nth_error (tasks (sch s)) i = Some t -> In (Some o, Some f) (t_keys t) -> covers c o f;
  v_asc : forall k a b, before (klook (reg (sch s)) k) a b -> a <= b;
  v_norej : forall i t, nth_error (tasks (sch s)) i = Some t -> t_status t <> Rejected;
  v_exec : forall i, In i (executed s) -> executing s i \/ succeeded s i;
  v_done : forall i, succeeded s i -> In i (executed s);
  v_cells : exists n, n <= length (calls s) /\ (forall i c, called s i c -> is_set c o f = true -> (In i (executed s) <-> i < n)) /\
              cells s o f = last_set (firstn n (calls s)) o f (default f);
  v_results : forall i c v, In (i, v) (results s) -> called s i c -> on c o f -> v = last_set (firstn i (calls s)) o f (default f);
  v_results_lt : forall i v, In (i, v) (results s) -> i < length (calls s) }.

Lemma vinv_init : vinv (store_init default).
Proof.
  constructor; cbn [store_init sch calls cells results executed init tasks reg].
  - apply sinv_init.
  - apply clean_init.
  - intros [|i] c H; discriminate.
  - intros [|i] c t H; discriminate.
  - intros k a b B. apply before_in in B. destruct B as [[] _].
  - intros [|i] t H; discriminate.
  - intros i [].
  - intros [|i] H; discriminate.
  - exists 0. repeat split; auto; try (intros; lia). intros [].
  - intros i c v [].
  - intros i v [].
Qed.

Lemma status_kept : forall s e' y i, step key_dec (sch s) e' = Some y -> (executing s i \/ succeeded s i) ->
  (forall j, e' <> EErr j /\ e' <> EFail j) -> inv key_dec (fun _ => true) (sch s) ->
  let s' := mkStore y (calls s) (cells s) (results s) (executed s) in executing s' i \/ succeeded s' i.
Proof.
  intros s e' y i H St NF I s'. unfold executing, succeeded in *. rewrite !status_task in *. subst s'. cbn [sch].
  destruct St as [(t & Ht & St)|(t & Ht & St)].
  - (* running *)
    destruct e'; cbn [step] in H.
    + destruct (register_all _ _ _ _ _ _). inversion H. left. exists t; split; auto. cbn. rewrite nth_error_app1; auto. apply nth_error_Some; congruence.
    + destruct (nth_error (tasks (sch s)) i0) as [u|] eqn:Hu; [|discriminate]. destruct (t_status u) eqn:Su; try discriminate.
      destruct (_ || _); inversion H. unfold set_status. rewrite Hu. cbn. assert (i0 < length (tasks (sch s))) by (apply nth_error_Some; congruence).
      left. exists t; split; auto. rewrite nth_upd by auto. destruct (Nat.eqb_spec i i0); auto. congruence.
    + destruct (Nat.eq_dec i i0) as [<-|N].
      * pose proof (done_resolves key_dec _ _ _ _ _ I Ht H) as D. right. rewrite D. unfold set_status. rewrite Ht. cbn.
        eexists; split; [rewrite nth_upd by (apply nth_error_Some; congruence); rewrite Nat.eqb_refl; eauto|auto].
      * destruct (nth_error (tasks (sch s)) i0) as [u|] eqn:Hu; [|discriminate]. destruct (t_status u) eqn:Su; try discriminate.
        destruct (unregister_all _ _ _ _). inversion H. cbn [tasks]. unfold set_status. rewrite Hu. cbn [tasks].
        assert (i0 < length (tasks (sch s))) by (apply nth_error_Some; congruence).
        left. exists t; split; auto. rewrite nth_upd by auto. destruct (Nat.eqb_spec i i0); auto. congruence.
    + destruct (NF i0); congruence.
    + destruct (NF i0); congruence.
    + destruct (nth_error (tasks (sch s)) i0) as [u|] eqn:Hu; [|discriminate]. destruct (t_status u) eqn:Su; try discriminate.
      destruct (existsb _ _); inversion H. unfold set_status. rewrite Hu. cbn. assert (i0 < length (tasks (sch s))) by (apply nth_error_Some; congruence).
      left. exists t; split; auto. rewrite nth_upd by auto. destruct (Nat.eqb_spec i i0); auto. congruence.
    + destruct (nth_error (tasks (sch s)) i0) as [u|] eqn:Hu; [|discriminate]. inversion H. cbn. assert (i0 < length (tasks (sch s))) by (apply nth_error_Some; congruence).
      left. rewrite nth_upd by auto. destruct (Nat.eqb_spec i i0); eauto. subst. eexists; split; eauto. cbn. congruence.
  - right. assert (S : settled t) by (left; auto). destruct (step_settled key_dec _ _ _ _ _ H Ht S) as (t' & H1 & H2).
    exists t'; split; auto; congruence.
Qed.

Lemma vinv_frame : forall s e y, vinv s -> is_call e = false -> (forall j, e <> EErr j /\ e <> EFail j /\ e <> EDep j /\ e <> ECancel j) ->
  step key_dec (sch s) e = Some y ->
  let s' := mkStore y (calls s) (cells s) (results s) (executed s) in
  sinv s' -> clean s' -> (forall i, succeeded s' i -> In i (executed s)) -> vinv s'.
Proof.
  intros s e y V NC NE H s' I' C' D.
  pose proof (v_sinv s V) as I. pose proof (s_inv _ _ I) as Iv.
  pose proof (step_extends key_dec _ _ _ H) as X. pose proof (step_length key_dec _ _ _ H) as L. rewrite NC in L.
  assert (BACK : forall i t, nth_error (tasks y) i = Some t -> exists t0, nth_error (tasks (sch s)) i = Some t0 /\ same t0 t).
  { intros i t Hi. destruct (nth_error (tasks (sch s)) i) as [t0|] eqn:E.
    - destruct (X _ _ E) as (t1 & H1 & S). rewrite Hi in H1. inversion H1; subst. eauto.
    - apply nth_error_None in E. assert (i < length (tasks y)) by (apply nth_error_Some; congruence). lia. }
  constructor; subst s'; cbn [sch calls cells results executed] in *; auto; try apply V.
  - intros i c t Hc Ht K. destruct (BACK _ _ Ht) as (t0 & H0 & _ & S2 & _). rewrite S2 in K. eapply (v_cover s V); eauto.
  - destruct e; try discriminate; cbn [step] in H.
    + destruct (nth_error (tasks (sch s)) i) as [u|] eqn:Hu; [|discriminate]. destruct (t_status u); try discriminate.
      destruct (_ || _); inversion H. rewrite reg_set_status. apply V.
    + destruct (nth_error (tasks (sch s)) i) as [u|] eqn:Hu; [|discriminate]. destruct (t_status u); try discriminate.
      destruct (unregister_all key_dec i (reg (sch s)) (t_keys u)) as [r ok] eqn:E. inversion H. cbn [reg].
      destruct (unregister_all_shrinks key_dec _ _ _ _ _ (inv_nodup key_dec _ _ Iv) E) as [_ SH].
      intros k a b B. destruct (SH k) as (S1 & _). eapply (v_asc s V); eauto.
    + destruct (NE i); congruence.
    + destruct (NE i) as (_ & ? & _); congruence.
    + destruct (NE i) as (_ & _ & ? & _); congruence.
    + destruct (NE i) as (_ & _ & _ & ?); congruence.
  - intros i t Ht. destruct e; try discriminate; try (destruct (NE i0) as (? & ? & ? & ?); congruence).
    + cbn [step] in H. destruct (nth_error (tasks (sch s)) i0) as [u|] eqn:Hu; [|discriminate]. destruct (t_status u); try discriminate.
      destruct (_ || _); inversion H; subst y. unfold set_status in Ht. rewrite Hu in Ht. cbn in Ht.
      rewrite nth_upd in Ht by (apply nth_error_Some; congruence). destruct (Nat.eqb_spec i i0); [inversion Ht; discriminate|].
      eapply (v_norej s V); eauto.
    + assert (exists u, nth_error (tasks (sch s)) i0 = Some u) as (u & Hu).
      { cbn [step] in H. destruct (nth_error (tasks (sch s)) i0); [eauto|discriminate]. }
      pose proof (done_resolves key_dec _ _ _ _ _ Iv Hu H) as DR. rewrite DR in Ht. unfold set_status in Ht. rewrite Hu in Ht. cbn in Ht.
      rewrite nth_upd in Ht by (apply nth_error_Some; congruence). destruct (Nat.eqb_spec i i0); [inversion Ht; discriminate|].
      eapply (v_norej s V); eauto.
  - intros i Hi. eapply status_kept; eauto. apply (v_exec s V); auto. intros j. destruct (NE j) as (? & ? & _); auto.
Qed.

Lemma vinv_exec_sets : forall s r cr, vinv s -> called s r cr -> on cr o f -> executing s r ->
  forall i c, called s i c -> is_set c o f = true -> (i < r -> In i (executed s)) /\ (r < i -> ~ In i (executed s)).
Proof.
  intros s r cr V Hr Or Er i c Hc Sc. apply is_set_on in Sc. destruct Sc as [Cs Oc].
  assert (Wc : c_write c = true).
  { destruct (v_good s V _ _ Hc) as [T _]. unfold typed_call in T. rewrite Cs in T. auto. }
  split.
  - intros L. assert (E : ended s i).
    { eapply (within_ordered default); [apply (v_sinv s V)|exact L|exact Hc|exact Hr|eapply on_within; eauto|auto|auto]. }
    destruct E as [E|E]; [apply (v_done s V); auto|]. unfold failed in E. rewrite status_task in E. destruct E as (t & Ht & St).
    exfalso. eapply (v_norej s V); eauto.
  - intros L X. apply (v_exec s V) in X.
    assert (E : ended s r).
    { eapply (within_ordered default); [apply (v_sinv s V)|exact L|exact Hr|exact Hc|eapply on_within; eauto|right; auto|auto]. }
    destruct E as [E|E]; unfold executing, succeeded, failed in *; congruence.
Qed.

Lemma vinv_step : forall s e s', vinv s -> good_event s e -> sstep s e = Some s' -> vinv s'.
Proof.
  intros s e s' V [Ca G] H. pose proof (v_sinv s V) as I. pose proof (s_inv _ _ I) as Iv.
  assert (I' : sinv s') by (eapply sinv_step; eauto).
  assert (C' : clean s').
  { eapply clean_step; [exact I|exact Ca| |apply (v_clean s V)|exact H]. destruct e; cbn; auto. }
  destruct e; cbn [SqlSchedModel.sstep] in H; try (destruct G; fail).
  - (* call *)
    destruct (step key_dec (sch s) (sched_event s c)) as [y|] eqn:E; [|discriminate]. inversion H; subst s'; clear H.
    unfold sched_event in E. cbn [step] in E. remember (registered _ _ _ _ (allObjectFeatures c)) as ks eqn:EK in E.
    destruct (register_all key_dec (wr_of (tasks (sch s)) (c_write c)) (c_write c) (length (tasks (sch s))) (reg (sch s)) ks) as [r ps] eqn:ER.
    inversion E; subst y; clear E.
    destruct (register_all_keys key_dec _ _ _ _ _ _ _ (inv_nodup key_dec _ _ Iv) ER) as [_ L].
    pose proof (s_len _ _ I) as LEN.
    assert (LT : forall i, In i (executed s) -> i < length (calls s)).
    { intros i Hi. destruct (v_exec s V _ Hi) as [X|X]; unfold executing, succeeded in X; rewrite status_task in X;
      destruct X as (t & Ht & _); rewrite LEN; apply nth_error_Some; congruence. }
    constructor; cbn [sch calls cells results executed tasks reg]; auto.
    + intros i c0 Hc. unfold called in Hc. cbn in Hc. destruct (Nat.lt_ge_cases i (length (calls s))) as [Li|Li].
      * rewrite nth_error_app1 in Hc by auto. eapply (v_good s V); eauto.
      * rewrite nth_error_app2 in Hc by auto. destruct (i - length (calls s)) as [|[|n]]; cbn in Hc; inversion Hc; subst; auto.
    + intros i c0 t Hc Ht K. unfold called in Hc. cbn in Hc, Ht. destruct (Nat.lt_ge_cases i (length (calls s))) as [Li|Li].
      * rewrite nth_error_app1 in Hc by auto. rewrite nth_error_app1 in Ht by lia. eapply (v_cover s V); eauto.
      * rewrite nth_error_app2 in Hc by auto. rewrite nth_error_app2 in Ht by lia. rewrite LEN in Hc.
        destruct (i - length (tasks (sch s))) as [|[|n]]; cbn in Hc, Ht; inversion Hc; inversion Ht; subst c0 t.
        cbn in K. rewrite EK in K. eapply registered_cover; eauto.
    + intros k a b B. rewrite L in B. destruct (Nat.eq_dec a b); [lia|]. apply before_count in B; auto.
      destruct B as [B|(-> & Ia & _)]; [eapply (v_asc s V); eauto|].
      destruct (inv_reg key_dec _ _ Iv _ _ Ia) as (t & Ht & _). assert (a < length (tasks (sch s))) by (apply nth_error_Some; congruence). lia.
    + intros i t Hi. destruct (Nat.lt_ge_cases i (length (tasks (sch s)))) as [Li|Li].
      * rewrite nth_error_app1 in Hi by auto. eapply (v_norej s V); eauto.
      * rewrite nth_error_app2 in Hi by auto. destruct (i - _) as [|[|n]]; cbn in Hi; inversion Hi. discriminate.
    + intros i Hi. destruct (v_exec s V _ Hi) as [X|X]; unfold executing, succeeded in *; rewrite !status_task in *; cbn [sch tasks];
      destruct X as (t & Ht & St); [left|right]; exists t; (rewrite nth_error_app1 by (apply nth_error_Some; congruence)); auto.
    + intros i Hi. unfold succeeded in Hi. rewrite status_task in Hi. cbn [sch tasks] in Hi. destruct Hi as (t & Ht & St).
      destruct (Nat.lt_ge_cases i (length (tasks (sch s)))) as [Li|Li].
      * rewrite nth_error_app1 in Ht by auto. apply (v_done s V). unfold succeeded. rewrite status_task. eauto.
      * rewrite nth_error_app2 in Ht by auto. destruct (i - _) as [|[|n]]; cbn in Ht; inversion Ht; subst; discriminate.
    + destruct (v_cells s V) as (n & Ln & Hn & Cn). exists n. rewrite app_length. repeat split; try lia.
      * intros X. unfold called in H. cbn in H. rewrite nth_error_app1 in H by auto. eapply Hn; eauto.
      * intros X. unfold called in H. cbn in H. rewrite nth_error_app1 in H by lia. eapply Hn; eauto.
      * rewrite firstn_app. replace (n - length (calls s)) with 0 by lia. cbn. rewrite app_nil_r. auto.
    + intros i c0 v Hv Hc Oc. pose proof (v_results_lt s V _ _ Hv) as Li. unfold called in Hc. cbn in Hc. rewrite nth_error_app1 in Hc by auto.
      rewrite firstn_app. replace (i - length (calls s)) with 0 by lia. cbn. rewrite app_nil_r. eapply (v_results s V); eauto.
    + intros i v Hv. rewrite app_length. pose proof (v_results_lt s V _ _ Hv). lia.
  - (* start *)
    apply with_sch_some in H. destruct H as (y & H & ->). eapply vinv_frame; eauto; [reflexivity| |].
    + intros j; repeat split; discriminate.
    + intros j Hj. apply (v_done s V). unfold succeeded in *. rewrite status_task in *. cbn [sch] in Hj. destruct Hj as (t & Ht & St).
      cbn [step] in H. destruct (nth_error (tasks (sch s)) i) as [u|] eqn:Hu; [|discriminate]. destruct (t_status u); try discriminate.
      destruct (_ || _); inversion H; subst y. unfold set_status in Ht. rewrite Hu in Ht. cbn in Ht.
      rewrite nth_upd in Ht by (apply nth_error_Some; congruence). destruct (Nat.eqb_spec j i); [inversion Ht; subst; discriminate|eauto].
  - (* effect *)
    destruct (status_of s i) as [[]|] eqn:St; try discriminate. destruct (nth_error (calls s) i) as [ci|] eqn:Hci; [|discriminate].
    destruct (has i (executed s)) eqn:Hx; [discriminate|]. inversion H; subst s'; clear H.
    assert (NX : ~ In i (executed s)) by (rewrite <- has_in; congruence).
    assert (Li : i < length (calls s)) by (apply nth_error_Some; congruence).
    assert (EX : executed (effect default s i ci) = i :: executed s).
    { unfold effect. destruct (c_object ci), (c_feature ci), (c_cmd ci); auto. }
    assert (F : sch (effect default s i ci) = sch s /\ calls (effect default s i ci) = calls s).
    { unfold effect. destruct (c_object ci), (c_feature ci), (c_cmd ci); auto. }
    destruct F as [F1 F2].
    assert (ST : forall j st, status_of (effect default s i ci) j = Some st <-> status_of s j = Some st).
    { intros j st. unfold status_of. rewrite F1. tauto. }
    destruct (v_cells s V) as (n & Ln & Hn & Cn).
    (* the cell of another feature, or no cell, is written *)
    assert (CELL : (is_set ci o f = true /\ cells (effect default s i ci) o f = c_value ci) \/
                   (is_set ci o f = false /\ cells (effect default s i ci) o f = cells s o f)).
    { destruct (is_set ci o f) eqn:SC; [left|right]; split; auto.
      - apply is_set_on in SC. destruct SC as [C1 [C2 C3]]. unfold effect. rewrite C1, C2, C3. cbn. unfold set_cell. rewrite !Nat.eqb_refl. auto.
      - unfold effect. destruct (c_object ci) as [q|] eqn:O; auto. destruct (c_feature ci) as [g|] eqn:Fe; auto.
        destruct (c_cmd ci) eqn:Cm; auto; cbn [cells]; unfold set_cell.
        + unfold is_set in SC. rewrite Cm, O, Fe in SC. destruct (Nat.eqb_spec o q); destruct (Nat.eqb_spec f g); cbn; auto; subst.
          rewrite !Nat.eqb_refl in SC. discriminate.
        + destruct (Nat.eqb_spec o q); destruct (Nat.eqb_spec f g); cbn; auto; subst.
          exfalso. destruct (v_good s V _ _ Hci) as [T W]. unfold typed_call in T. rewrite Cm in T.
          destruct (W T) as [W1 _]; [left; split; auto|congruence]. }
    assert (RES : forall j v, In (j, v) (results (effect default s i ci)) -> In (j, v) (results s) \/ (j = i /\ c_cmd ci = CGet /\ v = cells s (match c_object ci with Some x => x | None => 0 end) (match c_feature ci with Some x => x | None => 0 end) )).
    { intros j v. unfold effect. destruct (c_object ci), (c_feature ci), (c_cmd ci); cbn; auto. intros [E|E]; auto. inversion E; auto. }
    constructor; rewrite ?F1, ?F2, ?EX; auto.
    + intros j c Hc. unfold called in Hc. rewrite F2 in Hc. eapply (v_good s V); eauto.
    + intros j c t Hc Ht K. unfold called in Hc. rewrite F2 in Hc. eapply (v_cover s V); eauto.
    + apply V.
    + apply V.
    + intros j [<-|Hj]; unfold executing, succeeded; rewrite !ST; [left; auto|]. apply (v_exec s V); auto.
    + intros j Hj. unfold succeeded in Hj. rewrite ST in Hj. right. apply (v_done s V); auto.
    + destruct CELL as [[SC CE]|[SC CE]].
      * pose proof SC as SC'. apply is_set_on in SC'. destruct SC' as [C1 On].
        pose proof (vinv_exec_sets s i ci V Hci On St) as VS.
        exists (S i). split; [lia|]. split.
        -- intros j c Hc Sc. unfold called in Hc. rewrite F2 in Hc. destruct (VS j c Hc Sc) as [A B]. split.
           ++ intros [->|X]; [lia|]. destruct (Nat.lt_ge_cases i j) as [X1|X1]; [exfalso; eapply B; eauto|lia].
           ++ intros X. destruct (Nat.eq_dec j i); [left; auto|]. right. apply A. lia.
        -- rewrite CE, (firstn_nth _ _ _ Hci), last_set_app, last_set_one, SC. auto.
      * exists n. split; auto. split.
        -- intros j c Hc Sc. unfold called in Hc. rewrite F2 in Hc. specialize (Hn j c Hc Sc). split.
           ++ intros [->|X]; [|tauto]. unfold called in Hc. rewrite Hci in Hc. inversion Hc; subst. congruence.
           ++ intros X. right. tauto.
        -- rewrite CE. auto.
    + intros j c v Hv Hc Oc. unfold called in Hc. rewrite F2 in Hc. destruct (RES _ _ Hv) as [Hv'|(-> & Cg & ->)].
      * eapply (v_results s V); eauto.
      * rewrite Hci in Hc. inversion Hc; subst c. destruct Oc as [O1 O2]. rewrite O1, O2.
        rewrite Cn. apply last_set_same. intros j c Hc' Sc.
        assert (On : on ci o f) by (split; auto).
        pose proof (vinv_exec_sets s i ci V Hci On St j c Hc' Sc) as [A B].
        rewrite <- (Hn j c Hc' Sc). split.
        -- intros X. destruct (Nat.lt_trichotomy j i) as [|[->|X1]]; auto; [|exfalso; eapply B; eauto].
           rewrite Hci in Hc'. inversion Hc'; subst. apply is_set_on in Sc. destruct Sc; congruence.
        -- auto.
    + intros j v Hv. destruct (RES _ _ Hv) as [Hv'|(-> & _)]; auto. eapply (v_results_lt s V); eauto.
  - (* done *)
    destruct (has i (executed s)) eqn:Hx; [|discriminate]. apply has_in in Hx.
    apply with_sch_some in H. destruct H as (y & H & ->). eapply vinv_frame; eauto; [reflexivity| |].
    + intros j; repeat split; discriminate.
    + intros j Hj. unfold succeeded in *. rewrite status_task in *. cbn [sch] in Hj. destruct Hj as (t & Ht & St).
      assert (exists u, nth_error (tasks (sch s)) i = Some u) as (u & Hu).
      { cbn [step] in H. destruct (nth_error (tasks (sch s)) i); [eauto|discriminate]. }
      pose proof (done_resolves key_dec _ _ _ _ _ Iv Hu H) as DR. rewrite DR in Ht. unfold set_status in Ht. rewrite Hu in Ht. cbn in Ht.
      rewrite nth_upd in Ht by (apply nth_error_Some; congruence). destruct (Nat.eqb_spec j i); [subst; auto|].
      apply (v_done s V). unfold succeeded. rewrite status_task. eauto.
Qed.

Lemma good_trace : forall tr s, vinv s -> no_failure tr -> one_read_at_a_time default s tr -> only_sets o f tr -> forall s', srun s tr = Some s' -> vinv s'.
Proof.
  induction tr as [|e tr IH]; intros s V NF OR OS s' H; cbn [SqlSchedModel.srun] in H.
  - inversion H; subst; auto.
  - destruct (sstep s e) as [s1|] eqn:E; [|discriminate]. unfold one_read_at_a_time in OR. cbn [along] in OR. rewrite E in OR. destruct OR as [O1 O2].
    assert (G : good_event s e).
    { split.
      - destruct e; cbn; auto. destruct (c_write c) eqn:W; cbn; auto.
        intros k _ _ a Ia (t & Ht & Ut) Wa. exfalso. apply Ut.
        assert (exists ca, called s a ca) as (ca & Cca).
        { unfold called. destruct (nth_error (calls s) a) eqn:E1; eauto. apply nth_error_None in E1. rewrite (s_len _ _ (v_sinv s V)) in E1.
          assert (a < length (tasks (sch s))) by (apply nth_error_Some; congruence). lia. }
        rewrite <- (ended_task s a t Ht). apply (O1 eq_refl a ca Cca).
        rewrite <- (s_write _ _ (v_sinv s V) _ _ _ Cca Ht). unfold wr_of in Wa. rewrite Ht in Wa. auto.
      - destruct e; cbn in NF; auto. apply OS; cbn; auto. }
    apply (IH s1); auto.
    + eapply vinv_step; eauto.
    + destruct e; cbn in NF; auto; destruct NF.
    + intros c Hc. apply OS; cbn; auto.
Qed.

(** Get answers from the last pending write *)
Lemma fold_last : forall (p : nat -> option value) l acc,
  fold_left (fun a i => match p i with Some v => Some v | None => a end) l acc =
  match last_write (fun i => match p i with Some _ => true | None => false end) l with
  | Some i => p i
  | None => acc
  end.
Proof.
  intros p l; induction l as [|x l IH]; intros acc; cbn; auto. rewrite IH.
  destruct (last_write _ l) as [i|]; auto. destruct (p x) eqn:E; auto.
Qed.

Lemma get_pending : forall s v, vinv s -> last_pending_write s o f (-1)%Z = Some v -> v = last_set (calls s) o f (default f).
Proof.
  intros s v V H. unfold last_pending_write in H.
  set (p := fun i => match nth_error (calls s) i with Some c => if c_write c && (c_index c =? -1)%Z then Some (c_value c) else None | None => None end).
  assert (E : forall l acc, fold_left (fun acc i => match nth_error (calls s) i with
                          | Some c => if c_write c && (c_index c =? -1)%Z then Some (c_value c) else acc
                          | None => acc end) l acc = fold_left (fun a i => match p i with Some v => Some v | None => a end) l acc).
  { induction l as [|x l IH]; intros acc; cbn [fold_left]; auto. rewrite <- IH. f_equal. unfold p.
    destruct (nth_error (calls s) x) as [c|]; auto. destruct (c_write c && _); auto. }
  rewrite E, fold_last in H. clear E.
  destruct (last_write (fun i => match p i with Some _ => true | None => false end) (klook (reg (sch s)) (Some o, Some f))) as [w|] eqn:LW; [|discriminate].
  destruct (last_write_some _ _ _ LW) as (_ & l1 & l2 & EL & NW).
  assert (Iw : In w (klook (reg (sch s)) (Some o, Some f))) by (rewrite EL; apply in_or_app; cbn; auto).
  pose proof (v_sinv s V) as I. pose proof (s_inv _ _ I) as Iv.
  destruct (inv_reg key_dec _ _ Iv _ _ Iw) as (tw & Htw & Kw).
  unfold p in H. destruct (nth_error (calls s) w) as [cw|] eqn:Hcw; [|discriminate].
  destruct (c_write cw && (c_index cw =? -1)%Z) eqn:Ew; [|discriminate]. inversion H; subst v; clear H.
  apply andb_true_iff in Ew. destruct Ew as [Ww Iw1].
  destruct (v_good s V _ _ Hcw) as [_ Gw]. destruct (Gw Ww (v_cover s V _ _ _ Hcw Htw Kw)) as (C1 & On & _).
  assert (Sw : is_set cw o f = true) by (apply is_set_on; auto).
  pose proof (cl_reg s (v_clean s V) _ _ _ Iw Htw) as Uw.
  (* later sets do not exist *)
  assert (NL : forall b cb, w < b -> called s b cb -> is_set cb o f = false).
  { intros b cb L Hb. destruct (is_set cb o f) eqn:Sb; auto. exfalso.
    apply is_set_on in Sb. destruct Sb as [Cb Ob].
    assert (Wb : c_write cb = true).
    { destruct (v_good s V _ _ Hb) as [T _]. unfold typed_call in T. rewrite Cb in T. auto. }
    destruct (called_task default _ _ _ _ I Hb) as (tb & Htb).
    assert (Kb : In (Some o, Some f) (t_keys tb)).
    { pose proof (s_name _ _ I _ _ _ Hb Htb) as K. unfold name_key in K. destruct Ob as [O1 O2]. rewrite O1, O2 in K. auto. }
    assert (D : settled tb \/ ~ settled tb).
    { unfold settled. destruct (t_status tb); auto; right; intros [X|X]; discriminate. }
    destruct D as [D|D].
    - (* settled: then the earlier write is settled *)
      apply Uw. rewrite <- (ended_task s w tw Htw).
      eapply (within_ordered default); [exact I|exact L|exact Hcw|exact Hb|eapply on_within; eauto|auto|].
      destruct D as [D|D]; [right; unfold succeeded; rewrite status_task; eauto|]. exfalso; eapply (v_norej s V); eauto.
    - assert (Ib : In b (klook (reg (sch s)) (Some o, Some f))).
      { apply (count_occ_In Nat.eq_dec). rewrite (inv_pending key_dec _ _ Iv _ _ Htb D).
        destruct (count_key_in key_dec _ _ Kb) as (m & ->). lia. }
      pose proof Ib as Ib0. rewrite EL in Ib. apply in_app_iff in Ib. destruct Ib as [Ib|[Ib|Ib]]; [|lia|].
      + apply in_split in Ib. destruct Ib as (m1 & m2 & ->).
        assert (b <= w). { apply (v_asc s V (Some o, Some f)). exists m1, m2, l2. rewrite EL. rewrite <- app_assoc. auto. } lia.
      + apply NW in Ib. unfold p in Ib. unfold called in Hb. rewrite Hb in Ib. destruct (v_good s V _ _ Hb) as [_ Gb].
        destruct (Gb Wb (v_cover s V _ _ _ Hb Htb Kb)) as (_ & _ & Xb). rewrite Wb, Xb in Ib. discriminate. }
  rewrite <- (firstn_all (calls s)).
  assert (Lw : w < length (calls s)) by (apply nth_error_Some; congruence).
  rewrite <- (last_set_between (calls s) o f (default f) (S w) (length (calls s)) Lw).
  - rewrite (firstn_nth _ _ _ Hcw), last_set_app, last_set_one, Sw. auto.
  - intros i c Hi Hc. apply (NL i); auto. lia.
Qed.

End Store.

(** ** SQL statements *)
Notation nf := (fun _ : string => false).

Lemma brun_inv : forall tr s s', inv string_dec nf s -> brun s tr = Some s' -> inv string_dec nf s'.
Proof.
  induction tr as [|e tr IH]; intros s s' I H; cbn in H.
  - inversion H; subst; auto.
  - destruct (bstep s e) as [s1|] eqn:E; [|discriminate]. eapply (IH s1); auto. eapply inv_step; eauto.
    destruct e; cbn; auto. destruct (newQuery l ok) as [[] ts]; cbn; auto. intros; discriminate.
Qed.

Lemma brun_extends : forall tr s s', brun s tr = Some s' -> extends (tasks s) (tasks s').
Proof.
  induction tr as [|e tr IH]; intros s s' H; cbn in H.
  - inversion H; subst. apply extends_refl.
  - destruct (bstep s e) as [s1|] eqn:E; [|discriminate]. eapply extends_trans; [eapply step_extends; exact E|eauto].
Qed.

Lemma brun_scripts : forall tr s s' i t, brun s tr = Some s' -> nth_error (tasks s') i = Some t -> length (tasks s) <= i ->
  exists l ok, nth_error (scripts tr) (i - length (tasks s)) = Some (l, ok) /\ newQuery l ok = (t_write t, t_keys t).
Proof.
  induction tr as [|e tr IH]; intros s s' i t H Ht L; cbn in H.
  - inversion H; subst. apply nth_error_None in L. congruence.
  - destruct (bstep s e) as [s1|] eqn:E; [|discriminate].
    pose proof (step_length string_dec _ _ _ E) as LL. pose proof (brun_extends _ _ _ H) as X.
    destruct e; cbn [bevent_of is_call] in LL; cbn [scripts];
      try (rewrite Nat.add_0_r in LL; rewrite <- LL; eapply IH; eauto; lia).
    unfold bstep in E. cbn [bevent_of] in E. destruct (newQuery l ok) as [w ts] eqn:Q. cbn [is_call] in LL.
    destruct (Nat.eq_dec i (length (tasks s))) as [->|N].
    + rewrite Nat.sub_diag. cbn. exists l, ok. split; auto. cbn [step] in E.
      destruct (register_all _ _ _ _ _ _) as [r ps]. inversion E; subst s1. cbn [tasks] in X.
      destruct (X (length (tasks s)) (mkT w ts ps Waiting false)) as (t' & Ht' & S1 & S2 & _).
      { rewrite nth_error_app2, Nat.sub_diag; auto. }
      rewrite Ht in Ht'. inversion Ht'; subst t'. cbn in *. congruence.
    + replace (i - length (tasks s)) with (S (i - length (tasks s1))) by lia. cbn. eapply IH; eauto. lia.
Qed.

Lemma script_task : forall tr s i l ok t, brun init tr = Some s -> script tr i l ok -> nth_error (tasks s) i = Some t ->
  newQuery l ok = (t_write t, t_keys t).
Proof.
  intros tr s i l ok t H S Ht. destruct (brun_scripts _ _ _ _ _ H Ht) as (l' & ok' & E & Q); [cbn; lia|].
  cbn in E. rewrite Nat.sub_0_r in E. unfold script in S. rewrite S in E. inversion E; subst; auto.
Qed.

Lemma brun_length : forall tr s s', brun s tr = Some s' -> length (tasks s') = length (tasks s) + length (scripts tr).
Proof.
  induction tr as [|e tr IH]; intros s s' H; cbn in H.
  - inversion H; subst. cbn; lia.
  - destruct (bstep s e) as [s1|] eqn:E; [|discriminate]. rewrite (IH _ _ H).
    pose proof (step_length string_dec _ _ _ E) as LL. destruct e; cbn [bevent_of is_call scripts] in *; try (cbn; lia).
    destruct (newQuery l ok). cbn in *. lia.
Qed.

Lemma base_ordered : forall tr s a b la lb oka okb k, brun init tr = Some s -> a < b -> script tr a la oka -> script tr b lb okb ->
  fst (newQuery la oka) = true -> In k (snd (newQuery la oka)) -> In k (snd (newQuery lb okb)) -> bexecuting s b -> bended s a.
Proof.
  intros tr s a b la lb oka okb k H L Sa Sb W Ka Kb E.
  assert (I : inv string_dec nf s) by (eapply brun_inv; eauto; apply inv_init).
  unfold bexecuting in E. destruct (nth_error (tasks s) b) as [tb|] eqn:Hb; [|discriminate]. cbn in E. inversion E as [E1].
  destruct (nth_error (tasks s) a) as [ta|] eqn:Ha.
  2:{ apply nth_error_None in Ha. assert (b < length (tasks s)) by (apply nth_error_Some; congruence). lia. }
  pose proof (script_task _ _ _ _ _ _ H Sa Ha) as Qa. pose proof (script_task _ _ _ _ _ _ H Sb Hb) as Qb.
  rewrite Qa in W, Ka. rewrite Qb in Kb. cbn in *.
  assert (S : settled ta) by (eapply (inv_ordered string_dec nf s a b ta tb k); eauto).
  unfold bended. rewrite Ha. cbn. destruct S as [S|S]; rewrite S; auto.
Qed.

Lemma write_global : forall l ok, fst (newQuery l ok) = true -> In ""%string (snd (newQuery l ok)).
Proof.
  intros l ok. unfold newQuery. destruct (scan l ok false []) as [[] ts]; cbn; [|discriminate]. intros _. apply in_or_app; cbn; auto.
Qed.

Lemma single_write : forall l ok, single l -> changes l \/ ok = false -> fst (newQuery l ok) = true.
Proof.
  intros l ok S C. unfold single in S. destruct l as [|x [|y l]]; [| |cbn in S; lia].
  - destruct C as [(x & [] & _)| ->]. reflexivity.
  - destruct C as [(z & [<-|[]] & C)| ->]; destruct x; cbn in *; try contradiction; try reflexivity; destruct ok; reflexivity.
Qed.

Definition stuck_rejected (s : state string) : Prop :=
  forall x t k, nth_error (tasks s) x = Some t -> t_status t = Rejected -> t_write t = true -> In k (t_keys t) -> In x (look string_dec (reg s) k).

Lemma bevent_calm : forall s e, calm_event string_dec nf s (bevent_of e).
Proof. intros s e. destruct e; cbn; auto. destruct (newQuery l ok) as [[] ts]; cbn; auto. intros; discriminate. Qed.

Lemma stuck_rejected_step : forall s e s', inv string_dec nf s -> stuck_rejected s -> bstep s e = Some s' -> stuck_rejected s'.
Proof.
  intros s e s' I P H x t k Hx St W K. unfold bstep in H.
  pose proof (step_extends string_dec _ _ _ H) as X.
  destruct (nth_error (tasks s) x) as [t0|] eqn:H0.
  - destruct (X _ _ H0) as (t1 & H1 & S1 & S2 & _). rewrite Hx in H1. inversion H1; subst t1.
    destruct (t_status t0) eqn:St0.
    + (* waiting: the event rejects it *)
      assert (U : ~ settled t0) by (intros [A|A]; congruence).
      assert (In x (look string_dec (reg s) k)).
      { apply (count_occ_In Nat.eq_dec). rewrite (inv_pending string_dec _ _ I _ _ H0 U).
        rewrite S2 in K. destruct (count_key_in string_dec _ _ K) as (m & ->). lia. }
      destruct e; cbn [bevent_of step] in H.
      * destruct (newQuery l ok) as [w ts]. cbn [step] in H. destruct (register_all _ _ _ _ _ _). inversion H; subst s'. cbn [tasks] in Hx.
        rewrite nth_error_app1 in Hx by (apply nth_error_Some; congruence). congruence.
      * destruct (nth_error (tasks s) i) as [u|] eqn:Hu; [|discriminate]. destruct (t_status u) eqn:Su; try discriminate.
        destruct (_ || _); inversion H; subst s'. rewrite reg_set_status. auto.
      * destruct (nth_error (tasks s) i) as [u|] eqn:Hu; [|discriminate]. destruct (t_status u) eqn:Su; try discriminate.
        destruct (Nat.eq_dec x i) as [->|N]; [congruence|].
        destruct (unregister_all _ _ _ _) as [r okr] eqn:E. inversion H; subst s'. unfold set_status in Hx. cbn [tasks] in Hx. rewrite Hu in Hx. cbn [tasks] in Hx.
        rewrite nth_upd in Hx by (apply nth_error_Some; congruence). destruct (Nat.eqb_spec x i); congruence.
      * destruct (nth_error (tasks s) i) as [u|] eqn:Hu; [|discriminate]. destruct (t_status u) eqn:Su; try discriminate.
        inversion H; subst s'. rewrite reg_set_status. auto.
      * destruct (nth_error (tasks s) i) as [u|] eqn:Hu; [|discriminate]. destruct (t_status u) eqn:Su; try discriminate.
        destruct (existsb _ _); inversion H; subst s'. rewrite reg_set_status. auto.
    + assert (U : ~ settled t0) by (intros [A|A]; congruence).
      assert (In x (look string_dec (reg s) k)).
      { apply (count_occ_In Nat.eq_dec). rewrite (inv_pending string_dec _ _ I _ _ H0 U).
        rewrite S2 in K. destruct (count_key_in string_dec _ _ K) as (m & ->). lia. }
      destruct e; cbn [bevent_of step] in H.
      * destruct (newQuery l ok) as [w ts]. cbn [step] in H. destruct (register_all _ _ _ _ _ _). inversion H; subst s'. cbn [tasks] in Hx.
        rewrite nth_error_app1 in Hx by (apply nth_error_Some; congruence). congruence.
      * destruct (nth_error (tasks s) i) as [u|] eqn:Hu; [|discriminate]. destruct (t_status u) eqn:Su; try discriminate.
        destruct (_ || _); inversion H; subst s'. rewrite reg_set_status. auto.
      * destruct (Nat.eq_dec x i) as [->|N].
        { pose proof (done_resolves string_dec _ _ _ _ _ I H0 H) as D. exfalso. rewrite D in Hx. unfold set_status in Hx. rewrite H0 in Hx. cbn [tasks] in Hx.
          rewrite nth_upd in Hx by (apply nth_error_Some; congruence). rewrite Nat.eqb_refl in Hx. inversion Hx; subst t. discriminate. }
        destruct (nth_error (tasks s) i) as [u|] eqn:Hu; [|discriminate]. destruct (t_status u) eqn:Su; try discriminate.
        destruct (unregister_all _ _ _ _) as [r okr] eqn:E. inversion H; subst s'. unfold set_status in Hx. cbn [tasks] in Hx. rewrite Hu in Hx. cbn [tasks] in Hx.
        rewrite nth_upd in Hx by (apply nth_error_Some; congruence). destruct (Nat.eqb_spec x i); congruence.
      * destruct (nth_error (tasks s) i) as [u|] eqn:Hu; [|discriminate]. destruct (t_status u) eqn:Su; try discriminate.
        inversion H; subst s'. rewrite reg_set_status. auto.
      * destruct (nth_error (tasks s) i) as [u|] eqn:Hu; [|discriminate]. destruct (t_status u) eqn:Su; try discriminate.
        destruct (existsb _ _); inversion H; subst s'. rewrite reg_set_status. auto.
    + destruct (step_settled string_dec _ _ _ _ _ H H0) as (t' & Ht' & S'); [left; auto|]. congruence.
    + assert (PS : poisoned string_dec s x k (length (tasks s))).
      { eapply poisoned_start; eauto.
        - unfold is_rejected. rewrite H0, St0. auto.
        - unfold wr_of. rewrite H0. congruence.
        - eapply P; eauto; congruence. }
      assert (PS' : poisoned string_dec s' x k (length (tasks s))) by (eapply poisoned_step; eauto; apply bevent_calm).
      apply PS'.
  - pose proof (step_length string_dec _ _ _ H) as L. apply nth_error_None in H0.
    assert (x < length (tasks s')) by (apply nth_error_Some; congruence).
    destruct e; cbn [bevent_of is_call] in L; try lia. destruct (newQuery l ok) as [w ts] eqn:Q. cbn [is_call] in L.
    exfalso. cbn [bevent_of] in H. rewrite Q in H. cbn [step] in H. destruct (register_all _ _ _ _ _ _). inversion H; subst s'. cbn [tasks] in Hx.
    rewrite nth_error_app2 in Hx by auto. replace (x - length (tasks s)) with 0 in Hx by lia. cbn in Hx. inversion Hx; subst t. discriminate.
Qed.

Lemma stuck_rejected_run : forall tr s s', inv string_dec nf s -> stuck_rejected s -> brun s tr = Some s' -> stuck_rejected s'.
Proof.
  induction tr as [|e tr IH]; intros s s' I P H; cbn in H.
  - inversion H; subst; auto.
  - destruct (bstep s e) as [s1|] eqn:E; [|discriminate]. apply (IH s1); auto.
    + eapply inv_step; eauto. apply bevent_calm.
    + eapply stuck_rejected_step; eauto.
Qed.

Lemma base_poisoned_run : forall tr s s' x k n, inv string_dec nf s -> brun s tr = Some s' -> poisoned string_dec s x k n -> n <= length (tasks s) ->
  poisoned string_dec s' x k n.
Proof.
  induction tr as [|e tr IH]; intros s s' x k n I H P L; cbn in H.
  - inversion H; subst; auto.
  - destruct (bstep s e) as [s1|] eqn:E; [|discriminate]. apply (IH s1); auto.
    + eapply inv_step; eauto. apply bevent_calm.
    + eapply poisoned_step; eauto. apply bevent_calm.
    + pose proof (step_length string_dec _ _ _ E). lia.
Qed.

Lemma scripts_app : forall t1 t2, scripts (t1 ++ t2) = scripts t1 ++ scripts t2.
Proof. induction t1 as [|e t1 IH]; intros; cbn; auto. rewrite IH. destruct e; auto. Qed.
Lemma brun_app : forall t1 t2 s, brun s (t1 ++ t2) = match brun s t1 with Some s1 => brun s1 t2 | None => None end.
Proof. induction t1 as [|e t1 IH]; intros; cbn; auto. destruct (bstep s e); auto. Qed.

Lemma base_poisoned : forall tr tr' s s' x lx okx b lb okb k, brun init tr = Some s -> brun s tr' = Some s' ->
  script tr x lx okx -> fst (newQuery lx okx) = true -> option_map (@t_status string) (nth_error (tasks s) x) = Some Rejected ->
  length (scripts tr) <= b -> script (tr ++ tr') b lb okb -> In k (snd (newQuery lx okx)) -> In k (snd (newQuery lb okb)) ->
  ~ bexecuting s' b /\ option_map (@t_status string) (nth_error (tasks s') b) <> Some Resolved.
Proof.
  intros tr tr' s s' x lx okx b lb okb k H H' Sx W R Lb Sb Kx Kb.
  assert (I : inv string_dec nf s) by (eapply brun_inv; eauto; apply inv_init).
  assert (I' : inv string_dec nf s') by (eapply brun_inv; eauto).
  assert (SR : stuck_rejected s).
  { apply (stuck_rejected_run tr init s); [apply inv_init| |auto]. intros [|y] t q Hy; discriminate. }
  destruct (nth_error (tasks s) x) as [tx|] eqn:Hx; [|discriminate]. cbn in R. inversion R as [R1].
  pose proof (script_task _ _ _ _ _ _ H Sx Hx) as Qx. rewrite Qx in W, Kx. cbn in W, Kx.
  assert (P : poisoned string_dec s x k (length (tasks s))).
  { eapply poisoned_start; eauto.
    - unfold is_rejected. rewrite Hx, R1. auto.
    - unfold wr_of. rewrite Hx. auto. }
  assert (P' : poisoned string_dec s' x k (length (tasks s))) by (apply (base_poisoned_run tr' s s' x k); auto).
  assert (HH : brun init (tr ++ tr') = Some s') by (rewrite brun_app, H; auto).
  pose proof (brun_length _ _ _ H) as LT. cbn in LT.
  assert (B : forall t, nth_error (tasks s') b = Some t -> t_status t = Running \/ t_status t = Resolved -> False).
  { intros t Ht St. pose proof (script_task _ _ _ _ _ _ HH Sb Ht) as Qb. rewrite Qb in Kb. cbn in Kb.
    eapply (poisoned_blocks string_dec nf s' x k (length (tasks s)) b t); eauto. lia. }
  unfold bexecuting. destruct (nth_error (tasks s') b) as [t|]; cbn; split; try discriminate; intros E; inversion E; eapply B; eauto.
Qed.
