From Coq Require Import Permutation.
From Verif Require Import Base ListModel ListSpec ListProofs NotifyModel NotifyProofs CallbackProofs
  GraphModel GraphSpec GraphProofs GraphInv GraphSteps GraphFrameSpec GraphFrame.

Section Res.
  Context (M : metamodel) (W : wf_metamodel M).
  Notation f_many := (f_many M). Notation f_cont := (f_cont M). Notation f_opp := (f_opp M).
  Notation f_id := (f_id M). Notation f_resolve := (f_resolve M). Notation features := (features M).
  Notation isContainer := (isContainer M). Notation feature_at := (feature_at M).
  Notation getFeatureID := (getFeatureID M). Notation link_typed := (link_typed M).
  Notation GInv := (GInv M). Notation RInv := (RInv M). Notation code := (code M).
  Notation expected_roots := (expected_roots M).

  Lemma inverseRemove_res s x y id s' : inverseRemove M s x y id = Some s' -> contents s' = contents s.
  Proof.
    unfold inverseRemove, basicInverseRemove. destruct (id >=? 0).
    - destruct (feature_at x id) as [k|]; [|discriminate]. cbn [obind]. destruct (f_many k).
      + destruct (removeWithNotification (slot s x k) y) as [[l cb]|]; [|discriminate]. cbn. intro E. now injection E as <-.
      + destruct (isContainer k).
        * rewrite basicSetContainer_none. intro E. now injection E as <-.
        * intro E. now injection E as <-.
    - rewrite basicSetContainer_none. intro E. now injection E as <-.
  Qed.
  Lemma removeFromContainer_res s x s' : removeFromContainer M s x = Some s' -> contents s' = contents s.
  Proof.
    unfold removeFromContainer. destruct (container s x) as [c|]; [|intro E; now injection E as <-].
    destruct (containerFeatureID s x >=? 0); [|apply inverseRemove_res].
    destruct (feature_at x (containerFeatureID s x)) as [g|]; [|intro E; now injection E as <-].
    destruct (f_opp g); [apply inverseRemove_res|intro E; now injection E as <-].
  Qed.

  Lemma basicSetContainer_res s x c id cf s' : RInv s -> eContainmentFeature M x c id = Some cf ->
    basicSetContainer M s x (Some c) id = Some s' ->
    forall q, contents s' q = if f_resolve cf then contents s q else rm x (contents s q).
  Proof.
    intros R Hcf E q. pose proof R as (R1 & _). unfold basicSetContainer in E. rewrite Hcf in E.
    destruct (internalResource s x) as [r|] eqn:Er; cbn [obind] in E.
    - destruct (GraphModel.f_resolve M cf) eqn:Ev; cbn [negb] in E.
      + injection E as <-. reflexivity.
      + destruct (contentsRemove_ok M s r x R Er) as (s1 & E1 & _ & _ & _ & _ & E5 & E6 & _).
        rewrite E1 in E. cbn [obind] in E. injection E as <-. cbn [setContainer setResource contents].
        destruct (Nat.eq_dec q r) as [->|Hq]; [assumption|]. rewrite E5 by assumption.
        symmetry. apply rm_not_in. rewrite R1. congruence.
    - injection E as <-. cbn [setContainer contents]. destruct (f_resolve cf); [reflexivity|].
      symmetry. apply rm_not_in. rewrite R1. congruence.
  Qed.

  Lemma rem_res s o f x s' : listInverseRemove M s o f x = Some s' -> contents s' = contents s.
  Proof.
    unfold listInverseRemove. destruct (f_opp f); [apply inverseRemove_res|].
    destruct (f_cont f); [apply inverseRemove_res|intro E; now injection E as <-].
  Qed.

  Lemma add_res s o f x V s' : GInv (setSlot s o f V) -> RInv s -> ~ In x V -> link_typed o f x -> isContainer f = false ->
    listInverseAdd M s o f x = Some s' ->
    forall q, contents s' q = expected_roots f [x] (contents s q).
  Proof.
    intros G R Hx Ht Hnc E q. pose proof (proj1 Ht) as T1. unfold GraphFrameSpec.expected_roots, resolving.
    unfold listInverseAdd in E. rewrite without_one.
    destruct (GraphModel.f_cont M f) eqn:Ef; cbn [andb].
    - assert (Hr : forall s1, removeFromContainer M s x = Some s1 -> RInv s1).
      { intros s1 Er. destruct (container s x) as [c|] eqn:Ec.
        - destruct (removeFromContainer_ok M W s (setSlot s o f V) x c G eq_refl eq_refl Ec) as (f0 & Hf0 & Hx0 & Hg).
          assert (D0 : c <> o \/ f0 <> f).
          { destruct (slot_dec c f0 o f) as [[-> ->]|D']; [rewrite slot_eq in Hx0; contradiction|assumption]. }
          rewrite slot_ne in Hg by assumption. destruct (Hg eq_refl) as (l' & E' & _).
          rewrite E' in Er. injection Er as <-. exact R.
        - unfold removeFromContainer in Er. rewrite Ec in Er. now injection Er as <-. }
      assert (Hlast : forall s1 cf, removeFromContainer M s x = Some s1 -> eContainmentFeature M x o (code f) = Some cf ->
                basicSetContainer M s1 x (Some o) (code f) = Some s' ->
                contents s' q = if negb (f_resolve cf) then rm x (contents s q) else contents s q).
      { intros s1 cf Er Hcf Eb. rewrite (basicSetContainer_res s1 x o (code f) cf s' (Hr s1 Er) Hcf Eb).
        rewrite (removeFromContainer_res s x s1 Er). now destruct (f_resolve cf). }
      destruct (GraphModel.f_opp M f) as [g|] eqn:Eg.
      + destruct (opp_container M W f g Ef Eg) as (Hgc & Hgm & _ & _).
        pose proof (proj2 Ht _ Eg) as T2. apply (feat M W) in T2 as (Hat & Hid & H0).
        unfold inverseAdd in E. destruct (Z.geb_spec (f_id g) 0); [|lia].
        unfold basicInverseAdd in E. fold (feature_at x (f_id g)) in E. rewrite Hat in E. cbn [obind] in E.
        rewrite Hgm, Hgc in E. fold (getFeatureID x g) in E. rewrite Hid in E.
        destruct (removeFromContainer M s x) as [s1|] eqn:Er; [|discriminate]. cbn [obind] in E.
        apply (Hlast s1 g); [reflexivity| |].
        * unfold eContainmentFeature, GraphInv.code, BASE. rewrite Eg. destruct (Z.leb_spec (f_id g) (-1)); [lia|assumption].
        * unfold GraphInv.code. rewrite Eg. assumption.
      + apply (feat M W) in T1 as (Hat & _ & H0). unfold inverseAdd in E.
        destruct (Z.geb_spec (BASE - f_id f) 0); [unfold BASE in *; lia|].
        destruct (removeFromContainer M s x) as [s1|] eqn:Er; [|discriminate]. cbn [obind] in E.
        apply (Hlast s1 f); [reflexivity| |].
        * unfold eContainmentFeature, GraphInv.code, BASE. rewrite Eg. destruct (Z.leb_spec (-1 - f_id f) (-1)); [|lia].
          now replace (-1 - (-1 - f_id f)) with (f_id f) by lia.
        * unfold GraphInv.code. rewrite Eg. assumption.
    - destruct (GraphModel.f_opp M f) as [g|] eqn:Eg; [|now injection E as <-].
      destruct (noncont_pair M W f g Eg Ef Hnc) as (Hgf & Hgc & Hcg & Hne).
      pose proof (proj2 Ht _ Eg) as Tg. apply (feat M W) in Tg as (Hat & _ & H0).
      unfold inverseAdd in E. destruct (Z.geb_spec (f_id g) 0); [|lia].
      unfold basicInverseAdd in E. fold (feature_at x (f_id g)) in E. rewrite Hat in E. cbn [obind] in E.
      destruct (GraphModel.f_many M g).
      + cbn [doAdd obind] in E. now injection E as <-.
      + fold (isContainer g) in E. rewrite Hcg in E. destruct (slot s x g) as [|y l].
        * cbn [obind] in E. now injection E as <-.
        * rewrite Hgc, Hgf in E. destruct (inverseRemove M s y x _) as [s1|] eqn:E1; [|discriminate].
          cbn [obind] in E. injection E as <-. cbn [setSlot contents]. now rewrite (inverseRemove_res _ _ _ _ _ E1).
  Qed.

  Lemma roots_nil f l : expected_roots f [] l = l.
  Proof. unfold GraphFrameSpec.expected_roots. rewrite without_nil. now destruct (_ && _). Qed.
  Lemma roots_cons f x A l : expected_roots f A (expected_roots f [x] l) = expected_roots f (x :: A) l.
  Proof.
    unfold GraphFrameSpec.expected_roots. destruct (_ && _); [|reflexivity]. rewrite without_one. apply without_cons.
  Qed.
  Lemma roots_same f A A' l : (forall y, In y A <-> In y A') -> expected_roots f A l = expected_roots f A' l.
  Proof.
    intro H. unfold GraphFrameSpec.expected_roots, without. destruct (_ && _); [|reflexivity].
    apply filter_ext. intro y. f_equal. destruct (within y A') eqn:E; [apply within_In, H; now apply within_In|].
    apply within_not. rewrite H. now apply within_not.
  Qed.

  Lemma fold_rem_res o f R : forall s s', foldM (fun s x => listInverseRemove M s o f x) R s = Some s' -> contents s' = contents s.
  Proof.
    induction R as [|x R IH]; intros s s' E; cbn [foldM] in E; [now injection E as <-|].
    destruct (listInverseRemove M s o f x) as [s1|] eqn:E1; [|discriminate]. cbn [obind] in E.
    rewrite (IH s1 s' E). now apply (rem_res s o f x).
  Qed.
  Lemma fold_add_res o f A : f_many f = true -> isContainer f = false ->
    forall s V s', GInv (setSlot s o f V) -> RInv s -> NoDup A ->
    (forall x, In x A -> ~ In x V) -> (forall x, In x A -> link_typed o f x) ->
    foldM (fun s x => listInverseAdd M s o f x) A s = Some s' ->
    forall q, contents s' q = expected_roots f A (contents s q).
  Proof.
    intros Hm Hc. induction A as [|x A IH]; intros s V s' G Rs Hnd Hd Ht E q; cbn [foldM] in E.
    - injection E as <-. now rewrite roots_nil.
    - assert (Hx0 : ~ In x V) by (apply Hd; now left). assert (Ht0 : link_typed o f x) by (apply Ht; now left).
      destruct (add_ok M W s o f x V G Rs) as (s1 & E1 & Hs1 & G1 & R1); auto. { congruence. }
      rewrite E1 in E. cbn [obind] in E. inversion_clear Hnd as [|? ? Hx Hnd'].
      rewrite (IH s1 (V ++ [x]) s' G1 R1 Hnd').
      + rewrite (add_res s o f x V s1 G Rs Hx0 Ht0 Hc E1). apply roots_cons.
      + intros y Hy. rewrite in_app_iff. intros [Hv|[->|[]]]; [|contradiction]. eapply Hd; [right|]; eassumption.
      + intros y Hy. apply Ht. now right.
      + assumption.
  Qed.

  Lemma eSet_res s o f v s' : GInv s -> RInv s -> In f (features o) -> f_many f = false -> isContainer f = false ->
    (isBidirectional M f || f_cont f) = true -> (forall x, v = Some x -> link_typed o f x) ->
    hd_error (slot s o f) <> v -> eSet M s o f v = Some s' ->
    forall q, contents s' q = expected_roots f (to_list v) (contents s q).
  Proof.
    intros G R Hf Hm Hnc Hb Ht Hne E q. unfold eSet in E. rewrite Hnc, Hb in E. cbv zeta in E.
    pose proof (g_single M s G o f Hm) as Hsi.
    assert (Hold : slot s o f = to_list (hd_error (slot s o f))).
    { destruct (slot s o f) as [|y [|z l]]; cbn in *; [reflexivity|reflexivity|lia]. }
    destruct (some_eqb (hd_error (slot s o f)) v) eqn:Eq.
    { destruct Hne. destruct (hd_error (slot s o f)), v; cbn in Eq; try discriminate; [|reflexivity].
      apply Nat.eqb_eq in Eq. congruence. }
    assert (Hrem : exists s1, when (hd_error (slot s o f)) s (fun y => listInverseRemove M s o f y) = Some s1
        /\ GInv (setSlot s1 o f []) /\ RInv s1 /\ contents s1 = contents s).
    { destruct (hd_error (slot s o f)) as [y|] eqn:Ey; cbn [when to_list] in *.
      - assert (Hy : In y (slot s o f)) by (rewrite Hold; now left).
        destruct (rem_ok M W s o f y (slot s o f)) as (s1 & E1 & Hs1 & G1 & R1);
          [now apply GInv_view_self|assumption|assumption|].
        exists s1. split; [assumption|]. split; [|split; [assumption|now apply (rem_res s o f y)]].
        rewrite Hold in G1. cbn in G1. rewrite Nat.eqb_refl in G1. exact G1.
      - exists s. split; [reflexivity|]. split; [|split; [assumption|reflexivity]].
        rewrite <- Hold. now apply GInv_view_self. }
    destruct Hrem as (s1 & Er & G1 & R1 & E1).
    assert (Hadd : forall s2, when v s1 (fun x => listInverseAdd M s1 o f x) = Some s2 ->
      contents s2 q = expected_roots f (to_list v) (contents s q)).
    { intros s2 Ea. rewrite <- E1. destruct v as [x|]; cbn [when to_list] in *.
      - apply (add_res s1 o f x [] s2); auto.
      - injection Ea as <-. now rewrite roots_nil. }
    unfold listInverseAdd, listInverseRemove in *.
    destruct (GraphModel.f_opp M f) as [g|] eqn:Eg.
    - assert (E3 : when (hd_error (slot s o f)) s (fun y => inverseRemove M s y o (getFeatureID y g)) = Some s1).
      { rewrite <- Er. destruct (hd_error (slot s o f)) as [y|]; [|reflexivity]. cbn [when].
        assert (Hy : In y (slot s o f)) by (rewrite Hold; now left).
        destruct (g_typed M s G _ _ _ Hy) as [[_ T2] _]. specialize (T2 _ Eg).
        apply (feat M W) in T2 as (_ & -> & _). reflexivity. }
      rewrite E3 in E. cbn [obind] in E.
      assert (E2 : when v s1 (fun x => inverseAdd M s1 x o (getFeatureID x g)) = when v s1 (fun x => inverseAdd M s1 x o (f_id g))).
      { destruct v as [x|]; [|reflexivity]. cbn [when].
        destruct (Ht x eq_refl) as [_ T2]. specialize (T2 _ Eg).
        apply (feat M W) in T2 as (_ & -> & _). reflexivity. }
      rewrite E2 in E. destruct (when v s1 _) as [s2|] eqn:Ew; [|discriminate]. cbn [obind] in E. injection E as <-.
      exact (Hadd s2 eq_refl).
    - unfold isBidirectional in Hb. rewrite Eg in Hb. cbn in Hb. rewrite Hb in *.
      pose proof Hf as Hf'. apply (feat M W) in Hf' as (_ & Hid & _). rewrite Hid, Er in E. cbn [obind] in E.
      destruct (when v s1 _) as [s2|] eqn:Ew; [|discriminate]. cbn [obind] in E. injection E as <-.
      exact (Hadd s2 eq_refl).
  Qed.

  Lemma gstep_res s p o f s' : GInv s -> RInv s -> legal M s p -> call_on p o f -> isContainer f = false ->
    gstep M s p = Some s' ->
    exists A, (forall y, In y A <-> In y (slot s' o f) /\ ~ In y (slot s o f))
      /\ forall q, contents s' q = expected_roots f A (contents s q).
  Proof.
    intros G R L Hon Hc E.
    assert (Hsame : forall t, contents t = contents s -> (isBidirectional M f || f_cont f) = false ->
              exists A, (forall y, In y A <-> In y (slot t o f) /\ ~ In y (slot s o f))
                /\ forall q, contents t q = expected_roots f A (contents s q)).
    { intros t Hs Hb. exists (without (slot s o f) (slot t o f)). split; [intro; apply without_in|].
      intro q. rewrite Hs. unfold GraphFrameSpec.expected_roots.
      apply orb_false_iff in Hb as [_ H2]. now rewrite H2. }
    destruct p as [o' f' v|o' f'|o' f' p|r p|r]; cbn [call_on] in Hon; try contradiction; destruct Hon as [-> ->]; cbn [gstep] in E.
    - destruct L as (Hm & Hf & Ht). rewrite (accessed_own M W) in E by assumption. cbn [obind] in E.
      destruct (isBidirectional M f || f_cont f) eqn:Hb.
      + destruct (eSet_inverse M W s o f v G R Hf Hm Hc Hb Ht) as (s'' & E' & _ & _ & Hs').
        rewrite E in E'. injection E' as <-.
        pose proof (g_single M s G o f Hm) as Hsi.
        assert (Hold : slot s o f = to_list (hd_error (slot s o f))).
        { destruct (slot s o f) as [|y [|z l]]; cbn in *; [reflexivity|reflexivity|lia]. }
        destruct (some_eqb (hd_error (slot s o f)) v) eqn:Eq.
        * assert (s' = s) as ->.
          { unfold eSet in E. rewrite Hc, Hb in E. cbv zeta in E. rewrite Eq in E. congruence. }
          exists []. split; [cbn; tauto|]. intro q. now rewrite roots_nil.
        * assert (Hne : hd_error (slot s o f) <> v).
          { intro H. rewrite <- H in Eq. destruct (hd_error (slot s o f)); cbn in Eq; [|discriminate].
            now rewrite Nat.eqb_refl in Eq. }
          exists (to_list v). rewrite Hs'.
          assert (Hdis : forall y, In y (slot s o f) -> ~ In y (to_list v)).
          { intros y Hy Hv. rewrite Hold in Hy. destruct (hd_error (slot s o f)), v; cbn in Hy, Hv; try tauto.
            destruct Hy as [->|[]], Hv as [->|[]]. congruence. }
          split; [intro y; specialize (Hdis y); tauto|].
          apply (eSet_res s o f v s'); assumption.
      + apply Hsame; [|first [assumption|reflexivity]]. unfold eSet in E. rewrite Hc, Hb in E. now injection E as <-.
    - destruct L as (Hf & Hmm). rewrite (accessed_own M W) in E by assumption. cbn [obind] in E.
      assert (Hcon : contents s' = contents s).
      { unfold eUnset in E. rewrite Hc in E. destruct (isBidirectional M f || f_cont f); [|now injection E as <-].
        cbv zeta in E. destruct (when _ s _) as [s1|] eqn:Ew; [|discriminate]. cbn [obind] in E. injection E as <-.
        cbn [setSlot contents]. destruct (if f_many f then None else hd_error (slot s o f)) as [y|]; cbn [when] in Ew; [|congruence].
        destruct (GraphModel.f_opp M f); now apply inverseRemove_res in Ew. }
      assert (Hnil : slot s' o f = []).
      { destruct (isBidirectional M f || f_cont f) eqn:Hb.
        - assert (Hm : f_many f = false).
          { destruct (f_many f); [|reflexivity]. destruct (Hmm eq_refl) as [H1 H2]. unfold isBidirectional in Hb.
            rewrite H1, H2 in Hb. discriminate. }
          destruct (eUnset_inverse M W s o f G R Hf Hm Hc Hb) as (s'' & E' & _ & _ & Hs'). congruence.
        - unfold eUnset in E. rewrite Hc, Hb in E. injection E as <-. apply slot_eq. }
      exists []. rewrite Hnil, Hcon. split; [cbn; tauto|]. intro q. now rewrite roots_nil.
    - pose proof (listOp_ok M W s o f p G R L) as Hok.
      destruct L as (Hm & Hf & Hop & Hargs). rewrite (accessed_own M W) in E by assumption. cbn [obind] in E. unfold listOp in E.
      destruct (list_effect (slot s o f) p) as [[[st Rm] A]|] eqn:Ee; [|discriminate]. cbn [obind] in E.
      destruct Hok as (s'' & Es & _ & _ & Hfin). unfold listOp in Es. rewrite Ee in Es. cbn [obind] in Es.
      rewrite E in Es. injection Es as <-.
      pose proof (g_nodup M s G o f) as Hnd.
      apply list_effect_good in Ee as [Ee _]; [|assumption|assumption].
      destruct (effect_elements _ _ _ _ _ Hnd Ee) as (N1 & N2 & Hel).
      destruct Ee as (_ & Hi & HA & Hd & Harg).
      destruct (fold_rem M W o f Rm (setSlot s o f (final (slot s o f) st)) (slot s o f)) as (s1 & V1 & E1 & Hs1 & G1 & R1 & Hl1);
        [now apply GInv_view|exact R|assumption|assumption|].
      rewrite E1 in E. cbn [obind] in E.
      exists A. rewrite Hfin. split.
      + intro y. rewrite Hel. split; [|tauto]. intro Hy. split; [now right|now apply Hd].
      + intro q. rewrite (fold_add_res o f A Hm Hc s1 V1 s' G1 R1 HA).
        * now rewrite (fold_rem_res o f Rm _ _ E1).
        * intros x Hx Hv. apply Hl1 in Hv as [Hv _]. exact (Hd x Hx Hv).
        * intros x Hx. destruct (Harg x Hx) as [Ha|Ha]; [now apply Hargs|]. now apply (g_typed M s G).
        * assumption.
  Qed.

  Lemma parent_res s o f v p s' : GInv s -> RInv s -> p = OSet o f v \/ (p = OUnset o f /\ v = None) -> legal M s p ->
    isContainer f = true -> gstep M s p = Some s' ->
    (s' = s /\ exists c, v = Some c /\ eGet M s o f = Some [c])
    \/ forall q, contents s' q = expected_roots_parent M o f v (contents s q).
  Proof.
    intros G R Hp L Hc E. destruct Hp as [->|[-> ->]]; cbn [gstep] in E.
    - destruct L as (Hm & Hf & Ht). rewrite (accessed_own M W) in E by assumption. cbn [obind] in E.
      pose proof E as E0. unfold eSet in E. rewrite Hc in E. cbv zeta in E.
      destruct (container_pair M W f Hc) as (r & Eg & Eg' & Hr & Hmf & Hnc' & Hcf).
      pose proof Hf as Hfo. apply (feat M W) in Hfo as (Hat & Hid & H0). rewrite Hid in E.
      destruct (detach M W s o G R) as (s1 & Ed & R1 & Ec1 & Ei1 & Er1 & G1 & Hs1 & Hout1).
      assert (Hd : contents s1 = contents s).
      { destruct (container s o); cbn [when] in Ed; [now apply removeFromContainer_res in Ed|congruence]. }
      destruct v as [c|].
      + match type of E with context [if ?b then _ else _] => destruct b eqn:Eg0 end.
        2: { left. split; [congruence|]. exists c. split; [reflexivity|].
             apply orb_false_iff in Eg0 as [E1 E2]. apply negb_false_iff in E1, E2.
             destruct (container s o) as [c'|] eqn:Eco; cbn in E1; [|discriminate]. apply Nat.eqb_eq in E1. subst c'.
             rewrite (eGet_own M W), Hc, E2, Eco by assumption. reflexivity. }
        right. intro q. cbn [expected_roots_parent]. rewrite without_one, <- Hd.
        rewrite Ed in E. cbn [obind when] in E. rewrite Eg in E. cbn [obind] in E.
        destruct (Ht c eq_refl) as [_ T2]. specialize (T2 _ Eg).
        pose proof T2 as T2'. apply (feat M W) in T2' as (Hatc & Hidc & H0c). rewrite Hidc in E.
        assert (Hcf' : eContainmentFeature M o c (f_id f) = Some f).
        { unfold eContainmentFeature, BASE. destruct (Z.leb_spec (f_id f) (-1)); [lia|assumption]. }
        unfold inverseAdd in E. destruct (Z.geb_spec (f_id r) 0); [|lia].
        unfold basicInverseAdd in E. fold (feature_at c (f_id r)) in E. rewrite Hatc in E. cbn [obind] in E.
        fold (isContainer r) in E. rewrite Hnc' in E.
        assert (Hend : forall s2 l, RInv s2 -> contents s2 = contents s1 ->
          basicSetContainer M (setSlot s2 c r l) o (Some c) (f_id f) = Some s' ->
          contents s' q = if f_resolve f then contents s1 q else rm o (contents s1 q)).
        { intros s2 l R2 Hs2 Eb. rewrite <- Hs2.
          apply (basicSetContainer_res (setSlot s2 c r l) o c (f_id f) f s' R2 Hcf' Eb). }
        destruct (GraphModel.f_many M r) eqn:Em.
        * cbn [doAdd obind] in E. now apply (Hend s1 (slot s1 c r ++ [o])).
        * destruct (slot s1 c r) as [|y l].
          -- cbn [obind] in E. now apply (Hend s1 [o]).
          -- rewrite Hr in E. fold (getFeatureID c r) in E. rewrite Hidc in E.
             unfold inverseRemove in E. destruct (Z.geb_spec (BASE - f_id r) 0); [unfold BASE in *; lia|].
             rewrite basicSetContainer_none in E. cbn [obind] in E.
             apply (Hend (setContainer s1 y None (BASE - f_id r)) [o]); auto.
             apply (setContainer_RInv M s1); [assumption|]. discriminate.
      + right. intro q. cbn [expected_roots_parent].
        match type of E with context [if ?b then _ else _] => destruct b eqn:Eg0 end; [|congruence].
        rewrite Ed in E. cbn [obind when] in E. rewrite basicSetContainer_none in E. injection E as <-.
        cbn [setContainer contents]. now rewrite Hd.
    - right. intro q. cbn [expected_roots_parent]. destruct L as (Hf & _).
      rewrite (accessed_own M W) in E by assumption. cbn [obind] in E. unfold eUnset in E. rewrite Hc in E.
      destruct (container s o) as [c|] eqn:Ec; [|congruence].
      destruct (removeFromContainer M s o) as [s1|] eqn:Er; [|discriminate]. cbn [obind] in E.
      rewrite basicSetContainer_none in E. injection E as <-. cbn [setContainer contents].
      now rewrite (removeFromContainer_res _ _ _ Er).
  Qed.
End Res.
