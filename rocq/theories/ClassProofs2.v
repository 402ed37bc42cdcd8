(** Proofs about derived views of classes: queries and modifications. *)
From Coq Require Import Permutation.
From Verif Require Import Base ListModel ListSpec ListProofs CallbackProofs NotifyModel NotifySpec NotifyProofs ClassModel ClassSpec ClassProofs.

(** *** Small facts about the answers *)
Lemma name_map_spec g l n : name_map g l n = find (fun f => Nat.eqb (fname (info g f)) n) (rev l).
Proof.
  unfold name_map. rewrite <- fold_left_rev_right. induction (rev l) as [|f r IH]; cbn; [reflexivity|].
  unfold mapPut at 1, upd. rewrite Nat.eqb_sym. destruct (Nat.eqb (fname (info g f)) n); [reflexivity|exact IH].
Qed.

Lemma buildOver_spec ov l : forall m o,
  buildOver ov l m o = match override_in ov l o with Some y => Some y | None => m o end.
Proof.
  induction l as [|x rest IH]; intros m o; cbn [buildOver override_in]; [reflexivity|].
  rewrite IH. destruct (override_in ov rest o); [reflexivity|].
  rewrite <- fold_left_rev_right, rev_involutive. destruct (Nat.eqb_spec x o) as [->|N].
  - clear IH. induction rest as [|y r IHr]; cbn; [reflexivity|]. destruct (ov y o).
    + unfold mapPut. apply upd_same.
    + exact IHr.
  - clear IH. induction rest as [|y r IHr]; cbn; [reflexivity|]. destruct (ov y x); [|exact IHr].
    unfold mapPut at 1. rewrite upd_other by congruence. exact IHr.
Qed.

Lemma scanId_found l x from : forall i, (exists j, nth_error l j = Some x /\ from <= i + Z.of_nat j) ->
  exists j, scanId l i from x = i + Z.of_nat j /\ nth_error l j = Some x.
Proof.
  induction l as [|y l IH]; intros i (j & Hj & Hf); [now destruct j|]. cbn [scanId].
  destruct ((from <=? i) && Nat.eqb y x) eqn:E.
  - apply andb_true_iff in E as [_ E]. apply Nat.eqb_eq in E as ->. exists O. split; [lia|reflexivity].
  - destruct j as [|j]; cbn in Hj.
    + injection Hj as ->. rewrite Nat.eqb_refl, andb_true_r in E. apply Z.leb_gt in E. lia.
    + destruct (IH (i + 1)) as (j' & E' & Hj'); [exists j; split; [exact Hj|lia]|].
      exists (S j'). split; [lia|exact Hj'].
Qed.
Lemma scanId_absent l x from : forall i, ~ In x l -> scanId l i from x = -1.
Proof.
  induction l as [|y l IH]; intros i H; cbn; [reflexivity|]. destruct (Nat.eqb_spec y x) as [->|]; [exfalso; apply H; now left|].
  rewrite andb_false_r. apply IH. intro; apply H; now right.
Qed.
Lemma zget_nth {A} (l : list A) j : zget l (Z.of_nat j) = nth_error l j.
Proof. unfold zget. destruct (Z.ltb_spec (Z.of_nat j) 0); [lia|]. now rewrite Nat2Z.id. Qed.
Lemma zget_range {A} (l : list A) i : (if (i >=? 0) && (i <? zlen l) then zget l i else None) = zget l i.
Proof.
  unfold zget, zlen. rewrite Z.geb_leb. destruct (Z.leb_spec 0 i), (Z.ltb_spec i 0); cbn [andb]; try lia; auto.
  destruct (Z.ltb_spec i (Z.of_nat (length l))); [reflexivity|]. symmetry. apply nth_error_None. lia.
Qed.

Lemma inherited_own_ext sup after own own' c l :
  (forall y, own y = own' y) -> inherited sup after own c l -> inherited sup after own' c l.
Proof.
  intros E H. apply (proj1 (inherited_frame_both _ _ _ _ _) _ _ H (fun _ => True)); auto.
Qed.
Lemma filter_filter {A} (p q : A -> bool) l : filter p (filter q l) = filter (fun x => q x && p x) l.
Proof.
  induction l as [|x l IH]; cbn; [reflexivity|]. destruct (q x); cbn; [|exact IH]. destruct (p x); now rewrite IH.
Qed.

Section Queries.
  Variable overrides : nat -> nat -> bool.
  Notation valid := (valid overrides).
  Notation inv := (inv overrides).

  Lemma valid_set_cross s c v : valid s -> valid (setCache s KCross c v).
  Proof.
    intros [V1 V2 V3 V4 V5 V6 V7 V8 V9 V10].
    assert (E : forall k d, k <> KCross -> cache (setCache s KCross c v) k d = cache s k d).
    { intros k d N. rewrite cache_set. destruct (kind_eqb_spec k KCross); [congruence|reflexivity]. }
    assert (M : forall k, is_main k -> k <> KCross) by (intros k Hk; now apply not_main in Hk).
    constructor; change (gr (setCache s KCross c v)) with (gr s); change (nameMap (setCache s KCross c v)) with (nameMap s);
      change (overMap (setCache s KCross c v)) with (overMap s).
    - intros k d l Hk. rewrite E by auto. auto.
    - intros k d e Hk. rewrite !E by auto. eauto.
    - intros d l. rewrite (E KAttr), (E KOwnAttr), (E KId) by discriminate. auto.
    - intros d l. rewrite (E KRef), (E KOwnRef) by discriminate. eauto.
    - intros d l. rewrite (E KCont) by discriminate. auto.
    - intros d l. rewrite (E KFeat), (E KOwnCont), (E KOwnCross) by discriminate. eauto.
    - intros d l. rewrite (E KFeat) by discriminate. eauto.
    - intros d l. rewrite (E KOps) by discriminate. eauto.
    - intros d l. rewrite (E KFeat) by discriminate. apply V9.
    - intros d l. rewrite (E KOps) by discriminate. apply V10.
  Qed.

  Lemma valid_set_cont s c L : valid s -> inh KRef (gr s) c L ->
    valid (setCache s KCont c (Some (filter (fun f => isContainment (info (gr s) f)) L))).
  Proof.
    intros [V1 V2 V3 V4 V5 V6 V7 V8 V9 V10] HL. set (v := Some _).
    assert (E : forall k d, k <> KCont -> cache (setCache s KCont c v) k d = cache s k d).
    { intros k d N. rewrite cache_set. destruct (kind_eqb_spec k KCont); [congruence|reflexivity]. }
    assert (M : forall k, is_main k -> k <> KCont) by (intros k Hk; now apply not_main in Hk).
    constructor; change (gr (setCache s KCont c v)) with (gr s); change (nameMap (setCache s KCont c v)) with (nameMap s);
      change (overMap (setCache s KCont c v)) with (overMap s).
    - intros k d l Hk. rewrite E by auto. auto.
    - intros k d e Hk. rewrite !E by auto. eauto.
    - intros d l. rewrite (E KAttr), (E KOwnAttr), (E KId) by discriminate. auto.
    - intros d l. rewrite (E KRef), (E KOwnRef) by discriminate. eauto.
    - intros d l. rewrite cache_set. cbn [kind_eqb andb]. destruct (Nat.eqb_spec d c) as [->|]; [|auto].
      unfold v. intro Q; injection Q as <-. eauto.
    - intros d l. rewrite (E KFeat), (E KOwnCont), (E KOwnCross) by discriminate. eauto.
    - intros d l. rewrite (E KFeat) by discriminate. eauto.
    - intros d l. rewrite (E KOps) by discriminate. eauto.
    - intros d l. rewrite (E KFeat) by discriminate. apply V9.
    - intros d l. rewrite (E KOps) by discriminate. apply V10.
  Qed.

  Lemma valid_set_sub s c : valid s ->
    valid (setCache (setCache s KOwnCont c (Some (own_cont (gr s) c))) KOwnCross c (Some (own_cross (gr s) c))).
  Proof.
    intros [V1 V2 V3 V4 V5 V6 V7 V8 V9 V10]. set (s' := setCache _ _ _ _).
    assert (E : forall k d, k <> KOwnCont -> k <> KOwnCross -> cache s' k d = cache s k d).
    { intros k d N1 N2. unfold s'. rewrite !cache_set. destruct (kind_eqb_spec k KOwnCont), (kind_eqb_spec k KOwnCross); congruence || reflexivity. }
    assert (M : forall k, is_main k -> k <> KOwnCont /\ k <> KOwnCross) by (intros k Hk; now apply not_main in Hk).
    constructor; change (gr s') with (gr s); change (nameMap s') with (nameMap s); change (overMap s') with (overMap s).
    - intros k d l Hk. rewrite E by (now apply M). auto.
    - intros k d e Hk. rewrite !E by (now apply M). eauto.
    - intros d l. rewrite (E KAttr), (E KOwnAttr), (E KId) by discriminate. auto.
    - intros d l. rewrite (E KRef), (E KOwnRef) by discriminate. eauto.
    - intros d l. rewrite (E KCont) by discriminate. auto.
    - intros d l. rewrite (E KFeat) by discriminate. unfold s'. rewrite !cache_set. cbn [kind_eqb andb].
      destruct (Nat.eqb_spec d c) as [->|]; [auto|]. eauto.
    - intros d l. rewrite (E KFeat) by discriminate. eauto.
    - intros d l. rewrite (E KOps) by discriminate. eauto.
    - intros d l. rewrite (E KFeat) by discriminate. apply V9.
    - intros d l. rewrite (E KOps) by discriminate. apply V10.
  Qed.

  Lemma valid_set_name s c l : valid s -> cache s KFeat c = Some l -> valid (setNames s c (Some (name_map (gr s) l))).
  Proof.
    intros [V1 V2 V3 V4 V5 V6 V7 V8 V9 V10] Hc. constructor; auto.
    intros d l' Hd m. cbn. destruct (Nat.eqb_spec d c) as [->|N].
    - rewrite upd_same. intro Q; injection Q as <-. cbn in Hd. replace l' with l by congruence. reflexivity.
    - rewrite upd_other by exact N. eauto.
  Qed.
  Lemma valid_set_over s c l : valid s -> cache s KOps c = Some l -> valid (setOver s c (Some (buildOver overrides l (fun _ => None)))).
  Proof.
    intros [V1 V2 V3 V4 V5 V6 V7 V8 V9 V10] Hc. constructor; auto.
    intros d l' Hd m. cbn. destruct (Nat.eqb_spec d c) as [->|N].
    - rewrite upd_same. intro Q; injection Q as <-. cbn in Hd. replace l' with l by congruence. reflexivity.
    - rewrite upd_other by exact N. eauto.
  Qed.

  Lemma closed_anc s k c o : is_main k -> valid s -> cache s k c <> None -> ancestor (gr s) o c -> cache s k o <> None.
  Proof.
    intros Hk V Hc Ha. induction Ha as [|x y Hy _ IH]; [exact Hc|]. apply IH. exact (v_closed overrides s V k x y Hk Hc Hy).
  Qed.

  Lemma getID_position s k b c l x : (k = KFeat /\ b = true \/ k = KOps /\ b = false) ->
    valid s -> cache s k c = Some l ->
    position_of x l (if sid s b x =? -1 then -1 else scanId l 0 (sid s b x) x).
  Proof.
    intros Hkb V Hc. assert (Hm : is_main k) by (unfold is_main; cbn; intuition).
    assert (Hsid : sid_ok s b k) by (destruct Hkb as [[-> ->]|[-> ->]]; apply V).
    split.
    - intro Hx. pose proof (v_main overrides s V k c l Hm Hc) as Hi.
      assert (Hns : k <> KSup) by (intuition congruence).
      destruct (proj1 (inh_block_both k (gr s)) c l Hi Hns x Hx) as (o & lo & p & q & Ha & Ho & Hxo & El).
      assert (Hco : cache s k o <> None) by (apply (closed_anc s k c o Hm V); [congruence|exact Ha]).
      destruct (cache s k o) as [l'|] eqn:Eo; [clear Hco|congruence].
      pose proof (v_main overrides s V k o l' Hm Eo) as Hi'.
      assert (l' = lo ++ own k (gr s) o) by (eapply inherited_fun; eauto). subst l'.
      apply In_nth_error in Hxo as (j & Hj). pose proof (Hsid o _ Eo j x Hj) as Es. rewrite zlen_minus in Es.
      pose proof (zlen_nonneg lo). destruct (Z.eqb_spec (sid s b x) (-1)) as [E1|_]; [lia|].
      destruct (scanId_found l x (sid s b x) 0) as (j' & E' & Hj').
      + exists (length p + (length lo + j))%nat. split.
        * rewrite El. rewrite nth_error_app2 by lia. rewrite nth_error_app1.
          2:{ rewrite app_length. assert (nth_error (own k (gr s) o) j <> None) by congruence. apply nth_error_Some in H0. lia. }
          rewrite nth_error_app2 by lia. replace (_ - _ - _)%nat with j by lia. exact Hj.
        * rewrite Es. unfold zlen. lia.
      + rewrite E'. cbn [Z.add]. rewrite zget_nth. exact Hj'.
    - intro Hx. destruct (sid s b x =? -1); [reflexivity|]. now apply scanId_absent.
  Qed.

  Theorem ask_ok n s q :
    inv n s -> (match q with QAll k _ => is_main k | _ => True end) ->
    exists s' a, ask overrides n s q = Some (s', a) /\ inv n s' /\ gr s' = gr s /\
                 ((forall c, q <> QCross c) -> scratch overrides (gr s) q a).
  Proof.
    intros (Hok & Hmir & V) Hq. pose proof Hok as ((rank & Hb & Hr) & Of & Oo).
    assert (G : forall k c, is_main k -> exists s' l, getAll n k s c = Some (s', l) /\ valid s' /\ gr s' = gr s /\ subs s' = subs s /\
                                         inh k (gr s) c l /\ cache s' k c = Some l).
    { intros k c Hk. destruct (getAll_ok overrides k Hk rank (gr s) Hr Of Oo n s c eq_refl V (Hb c)) as (s' & l & E & V' & G' & I' & C').
      exists s', l. split; [exact E|]. split; [exact V'|]. split; [apply G'|]. split; [apply G'|]. auto. }
    assert (Hi : forall s', valid s' -> gr s' = gr s -> subs s' = subs s -> inv n s').
    { intros s' V' Eg Es. split; [now rewrite Eg|]. split; [|exact V']. unfold mirrored. rewrite Eg, Es. exact Hmir. }
    assert (Mref : is_main KRef) by (unfold is_main; cbn; auto).
    assert (Mat : is_main KAttr) by (unfold is_main; cbn; auto).
    assert (Mft : is_main KFeat) by (unfold is_main; cbn; auto).
    assert (Mop : is_main KOps) by (unfold is_main; cbn; auto 6).
    assert (Msu : is_main KSup) by (unfold is_main; cbn; auto).
    destruct q as [k c|c|c|c|c|c|c|c|c m|c o|c f|c i|c o|c i|a b]; cbn [ask scratch].
    - destruct (G k c Hq) as (s' & l & E & V' & Eg & Es & I' & C'). rewrite E. cbn [obind].
      exists s', (AList l). split; [reflexivity|]. split; [now apply Hi|]. split; [exact Eg|]. intros _.
      apply main_cases in Hq. decompose [or] Hq; subst k; exists l; (split; [exact I'|reflexivity]).
    - unfold getAllContainments. destruct (G KRef c Mref) as (s' & L & E & V' & Eg & Es & I' & C'). rewrite E. cbn [obind].
      assert (Sc : all_of (gr s) (containment (gr s)) c (filter (fun f => isContainment (info (gr s) f)) L)).
      { unfold all_of. eapply inherited_own_ext; [|eapply (proj1 (inherited_filter_both _ _ _ (fun f => isContainment (info (gr s) f))) _ _ I')].
        - intro y. cbn [own]. now rewrite filter_filter.
        - reflexivity. }
      destruct (cache s' KCont c) as [l|] eqn:Ec; cbn [obind].
      + exists s', (AList l). split; [reflexivity|]. split; [now apply Hi|]. split; [exact Eg|]. intros _.
        destruct (v_cont overrides s' V' c l Ec) as (L' & HL & El). rewrite Eg in HL, El.
        assert (L' = L) by (eapply inherited_fun; eauto). subst L' l. eauto.
      + eexists _, _. split; [reflexivity|]. rewrite <- Eg in I' |- *. split.
        * apply Hi; auto. now apply valid_set_cont.
        * split; [reflexivity|]. intros _. rewrite Eg. eauto.
    - unfold getAllCrossReferences. destruct (G KRef c Mref) as (s' & L & E & V' & Eg & Es & I' & C'). rewrite E. cbn [obind].
      destruct (cache s' KCross c) as [l|] eqn:Ec; cbn [obind]; eexists _, _; (split; [reflexivity|]).
      + split; [now apply Hi|]. split; [exact Eg|]. intros N. now destruct (N c).
      + split; [apply Hi; auto; now apply valid_set_cross|]. split; [exact Eg|]. intros N. now destruct (N c).
    - unfold getWith. destruct (G KAttr c Mat) as (s' & L & E & V' & Eg & Es & I' & C'). rewrite E. cbn [obind].
      rewrite (proj1 (v_attr overrides s' V' c L C')). eexists _, _. split; [reflexivity|]. split; [now apply Hi|]. split; [exact Eg|].
      intros _. now rewrite Eg.
    - unfold getWith. destruct (G KRef c Mref) as (s' & L & E & V' & Eg & Es & I' & C'). rewrite E. cbn [obind].
      rewrite (v_ref overrides s' V' c L C'). eexists _, _. split; [reflexivity|]. split; [now apply Hi|]. split; [exact Eg|].
      intros _. now rewrite Eg.
    - unfold getWith. destruct (G KAttr c Mat) as (s' & L & E & V' & Eg & Es & I' & C'). rewrite E. cbn [obind].
      rewrite (proj2 (v_attr overrides s' V' c L C')). eexists _, _. split; [reflexivity|]. split; [now apply Hi|]. split; [exact Eg|].
      intros _. exists L. split; [exact I'|]. unfold id_list. now rewrite Eg.
    - unfold getSubSet. destruct (G KFeat c Mft) as (s' & L & E & V' & Eg & Es & I' & C'). rewrite E. cbn [obind].
      assert (Sc : own_cont (gr s') c = filter (fun f => containment (gr s) f && persistent (gr s) f) (feats (gr s) c)) by now rewrite Eg.
      destruct (cache s' KOwnCont c) as [l|] eqn:Ec; cbn [obind]; eexists _, _; (split; [reflexivity|]).
      + split; [now apply Hi|]. split; [exact Eg|]. intros _. destruct (v_sub overrides s' V' c L C') as [Q|[Q _]]; [congruence|].
        rewrite Q. now rewrite Sc.
      + split; [apply Hi; auto; now apply (valid_set_sub s' c V')|]. split; [exact Eg|]. intros _.
        rewrite !cache_set. cbn [kind_eqb andb]. rewrite Nat.eqb_refl. rewrite <- Sc. reflexivity.
    - unfold getSubSet. destruct (G KFeat c Mft) as (s' & L & E & V' & Eg & Es & I' & C'). rewrite E. cbn [obind].
      assert (Sc : own_cross (gr s') c = filter (fun f => cross (gr s) f && persistent (gr s) f) (feats (gr s) c)).
      { rewrite Eg. apply filter_ext. intro f. unfold cross, persistent. now rewrite andb_assoc. }
      destruct (cache s' KOwnCont c) as [l|] eqn:Ec; cbn [obind]; eexists _, _; (split; [reflexivity|]).
      + split; [now apply Hi|]. split; [exact Eg|]. intros _. destruct (v_sub overrides s' V' c L C') as [Q|[_ Q]]; [congruence|].
        rewrite Q. now rewrite Sc.
      + split; [apply Hi; auto; now apply (valid_set_sub s' c V')|]. split; [exact Eg|]. intros _.
        rewrite !cache_set. cbn [kind_eqb andb]. rewrite Nat.eqb_refl. rewrite <- Sc. reflexivity.
    - unfold getFromName. destruct (G KFeat c Mft) as (s' & L & E & V' & Eg & Es & I' & C'). rewrite E. cbn [obind].
      destruct (nameMap s' c) as [mp|] eqn:En; cbn [obind]; eexists _, _; (split; [reflexivity|]).
      + split; [now apply Hi|]. split; [exact Eg|]. intros _. exists L. split; [exact I'|].
        rewrite (v_name overrides s' V' c L C' mp En), Eg. now rewrite name_map_spec.
      + split; [apply Hi; auto; now apply (valid_set_name s' c L V')|]. split; [exact Eg|]. intros _. exists L. split; [exact I'|].
        fold (name_map (gr s') L). rewrite Eg. now rewrite name_map_spec.
    - unfold getOverride. destruct (G KOps c Mop) as (s' & L & E & V' & Eg & Es & I' & C'). rewrite E. cbn [obind].
      assert (B : buildOver overrides L (fun _ => None) o = override_in overrides L o) by (rewrite buildOver_spec; now destruct (override_in overrides L o)).
      destruct (overMap s' c) as [mp|] eqn:En; cbn [obind]; eexists _, _; (split; [reflexivity|]).
      + split; [now apply Hi|]. split; [exact Eg|]. intros _. exists L. split; [exact I'|].
        now rewrite (v_over overrides s' V' c L C' mp En), B.
      + split; [apply Hi; auto; now apply (valid_set_over s' c L V')|]. split; [exact Eg|]. intros _. exists L. split; [exact I'|]. now rewrite B.
    - unfold getID. destruct (G KFeat c Mft) as (s' & L & E & V' & Eg & Es & I' & C'). rewrite E. cbn [obind].
      eexists _, _. split; [reflexivity|]. split; [now apply Hi|]. split; [exact Eg|]. intros _. eexists L, _. split; [exact I'|]. split; [reflexivity|].
      apply (getID_position s' KFeat true c L f); auto.
    - unfold getByID. destruct (G KFeat c Mft) as (s' & L & E & V' & Eg & Es & I' & C'). rewrite E. cbn [obind].
      eexists _, _. split; [reflexivity|]. split; [now apply Hi|]. split; [exact Eg|]. intros _. exists L. split; [exact I'|]. now rewrite zget_range.
    - unfold getID. destruct (G KOps c Mop) as (s' & L & E & V' & Eg & Es & I' & C'). rewrite E. cbn [obind].
      eexists _, _. split; [reflexivity|]. split; [now apply Hi|]. split; [exact Eg|]. intros _. eexists L, _. split; [exact I'|]. split; [reflexivity|].
      apply (getID_position s' KOps false c L o); auto.
    - unfold getByID. destruct (G KOps c Mop) as (s' & L & E & V' & Eg & Es & I' & C'). rewrite E. cbn [obind].
      eexists _, _. split; [reflexivity|]. split; [now apply Hi|]. split; [exact Eg|]. intros _. exists L. split; [exact I'|]. now rewrite zget_range.
    - destruct (Nat.eqb_spec b a) as [->|N].
      + eexists _, _. split; [reflexivity|]. split; [split; auto; split; auto|]. split; [reflexivity|]. intros _. exists true. split; [reflexivity|].
        split; [intros _; constructor|reflexivity].
      + destruct (G KSup b Msu) as (s' & L & E & V' & Eg & Es & I' & C'). rewrite E. cbn [obind].
        eexists _, _. split; [reflexivity|]. split; [now apply Hi|]. split; [exact Eg|]. intros _. eexists. split; [reflexivity|].
        rewrite existsb_exists. split.
        * intros (x & Hx & Q). apply Nat.eqb_eq in Q as <-. apply (proj1 (supertypes_both (gr s)) b L I') in Hx as (d & Hd & Ha).
          econstructor; eauto.
        * intro Ha. exists a. split; [|apply Nat.eqb_refl]. apply (proj1 (supertypes_both (gr s)) b L I').
          inversion Ha as [|? y Hy Ha']; subst; [congruence|eauto].
  Qed.
End Queries.
