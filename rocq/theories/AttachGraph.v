From Coq Require Import Setoid.
From Verif Require Import Base ListModel ListSpec ListProofs NotifyModel NotifyProofs
  GraphModel GraphSpec GraphProofs GraphInv GraphSteps GraphAcyclic AttachModel AttachErase AttachSpec AttachProofs AttachSteps.

Section AttachGraph.
  Context (M : metamodel) (W : wf_metamodel M) (fuel : nat).
  Notation GInv := (GInv M). Notation RInv := (RInv M). Notation Agr := (Agr M).

  Lemma Mid_ext s s' k : (forall x, container s' x = container s x) ->
    (forall x, internalResource s' x = internalResource s x) -> Mid s k -> Mid s' k.
  Proof.
    intros H1 H2 [A B C D]. constructor.
    - now apply (K_ext s).
    - intros x r. rewrite H1, H2. apply B.
    - intros x Hx. apply (C x). apply (above_same s'); [intro; congruence|assumption].
    - destruct D as [D HD]. exists D. intro x. rewrite H1. apply HD.
  Qed.

  (** ** container references *)
  Lemma unset_container_mid s k o id s' es : GInv s -> Mid s k ->
    (let# s1 := whenA (container s o) s (fun _ => removeFromContainerA M fuel s o) in
     basicSetContainerA M fuel s1 o None id) = Some (s', es) -> Mid s' (hear_all k es).
  Proof.
    intros G Hm E. apply bindA_inv in E as (s1 & e1 & e2 & E1 & E2 & ->).
    assert (Q : quiet s s1 e1 /\ forall a g, container s o <> Some a -> slot s1 a g = slot s a g).
    { destruct (container s o) as [c|] eqn:Ec; cbn [whenA] in E1.
      - rewrite <- Ec. exact (rfc_quiet M W fuel s s o s1 e1 G eq_refl eq_refl E1).
      - injection E1 as <- <-. repeat split. }
    destruct Q as [Q Hs]. pose proof (quiet_mid s s1 e1 k Q Hm) as Hm1. destruct Q as (-> & Qc & Qr & _). cbn [app].
    destruct (bsc_mid M fuel s1 k o None id s' e2 (fun y => container s o = Some y) E2 Hm1) as (R1 & _); auto; try discriminate.
    - apply (Agr_slots M s s1 (fun _ => False)); [intro; congruence| |now apply Agr_of_GInv].
      intros y Hy. split; [tauto|]. intro g. now apply Hs.
    - intros y Hy. apply not_below_container; [apply (m_ac _ _ Hm1)|congruence].
  Qed.

  Lemma below_sub s s' : (forall z d, container s' z = Some d -> container s z = Some d) -> forall x y, below s' x y -> below s x y.
  Proof.
    intros H x y [->|Hb]; [now left|]. right. induction Hb.
    - apply above_direct. auto.
    - eapply above_step; [eauto|assumption].
  Qed.

  Lemma set_container_mid s k o f c s' es : GInv s -> RInv s -> Mid s k -> In f (features M o) -> isContainer M f = true ->
    link_typed M o f c -> may_contain s c o -> (f_resolve M f = true -> internalResource s o = None) ->
    eSetA M fuel s o f (Some c) = Some (s', es) -> Mid s' (hear_all k es).
  Proof.
    intros G R Hm Hf Hc Ht Hmay Hres E. unfold eSetA in E. rewrite Hc in E. cbv zeta in E.
    destruct (container_pair M W f Hc) as (f' & Eg & Eg' & Hf' & Hmf & Hnc' & Hcf).
    pose proof Hf as Hfo. apply (feat M W) in Hfo as (Hat & Hid & H0). rewrite Hid in E.
    match type of E with (if ?b then _ else _) = _ => destruct b eqn:Eg0 end; [|injection E as <- <-; assumption].
    apply bindA_inv in E as (s1 & e1 & e0 & E1 & E & ->). apply bindA_inv in E as (s2 & e2 & e3 & E2 & E3 & ->).
    cbn [whenA] in E2. rewrite Eg in E2.
    destruct Ht as [_ T2]. specialize (T2 _ Eg). pose proof T2 as T2'. apply (feat M W) in T2' as (Hatc & Hidc & H0c).
    rewrite Hidc in E2.
    assert (Hno : ~ In o (slot s c f')).
    { intro Hin. destruct (g_cont M s G c f' o Hf' Hin) as [C1 C2]. unfold GraphInv.code in C2.
      rewrite Eg' in C2. rewrite C1, C2 in Eg0. cbn in Eg0. rewrite Nat.eqb_refl in Eg0. cbn in Eg0.
      destruct (Z.eqb_spec (f_id M f) (f_id M f)); [discriminate|lia]. }
    (* out of the old container *)
    assert (Q : quiet s s1 e1 /\ forall a g, container s o <> Some a -> slot s1 a g = slot s a g).
    { destruct (container s o) as [d|] eqn:Ec; cbn [whenA] in E1.
      - rewrite <- Ec. exact (rfc_quiet M W fuel s s o s1 e1 G eq_refl eq_refl E1).
      - injection E1 as <- <-. repeat split. }
    destruct (detach M W s o G R) as (s1' & Ed & R1 & Ec1 & Ei1 & Er1 & G1 & Hs1 & Hout1).
    assert (s1' = s1) as ->.
    { apply (when_erase _ _ _ (fun _ => removeFromContainer M s o)) in E1; [congruence|]. intro. apply removeFromContainer_erase. }
    clear Ed. destruct Q as [Q Hs]. pose proof (quiet_mid s s1 e1 k Q Hm) as Hm1. destruct Q as (-> & Qc & Qr & _).
    cbn [app] in *.
    pose proof (Hs1 c f' Hno) as Es1.
    assert (Hcf2 : forall cf, eContainmentFeature M o c (f_id M f) = Some cf -> cf = f).
    { intros cf H. unfold eContainmentFeature, BASE in H. destruct (Z.leb_spec (f_id M f) (-1)); [lia|]. congruence. }
    assert (Hmayb : ~ below s o c) by now apply (may_not_below s c o).
    (* when nothing is announced before the last step *)
    assert (Hquiet : quiet s1 s2 e2 -> (forall a g, a <> c -> slot s2 a g = slot s1 a g) -> Mid s' (hear_all k (e2 ++ e3))).
    { intros Q2 Hs2. pose proof (quiet_mid s1 s2 e2 k Q2 Hm1) as Hm2. destruct Q2 as (-> & Q2c & Q2r & _). cbn [app].
      assert (Hb : forall y, below s2 o y -> below s o y) by (apply below_ext; intro; congruence).
      destruct (bsc_mid M fuel s2 k o (Some c) (f_id M f) s' e3 (fun y => y = c \/ container s o = Some y) E3 Hm2) as (Rm & _); auto.
      - apply (Agr_slots M s s2 (fun _ => False)); [intro; congruence| |now apply Agr_of_GInv].
        intros y Hy. split; [tauto|]. intro g. rewrite Hs2 by tauto. apply Hs. tauto.
      - intros y [->|Hy] H; apply Hb in H; [contradiction|]. now apply (not_below_container s o y (m_ac s k Hm)).
      - intros c' Ec H. injection Ec as <-. apply Hb in H. contradiction.
      - intros c' cf r Ec Hr H. injection Ec as <-. rewrite (Hcf2 cf H). destruct (f_resolve M f); [|reflexivity].
        rewrite Q2r, Qr, Hres in Hr by reflexivity. discriminate. }
    unfold inverseAddA in E2. destruct (Z.geb_spec (f_id M f') 0) as [Hge|]; [|lia].
    unfold basicInverseAddA in E2. rewrite Hatc, Hnc' in E2.
    destruct (f_many M f') eqn:Em.
    { cbn in E2. injection E2 as <- <-. apply Hquiet; [repeat split|]. intros a g Ha. apply slot_ne. now left. }
    apply bindA_inv in E2 as (t & ey & ez & Ey & Ez & ->). injection Ez as <- <-. rewrite app_nil_r in *.
    rewrite Es1 in Ey. destruct (slot s c f') as [|y l] eqn:Esl.
    { injection Ey as <- <-. apply Hquiet; [repeat split|]. intros a g Ha. apply slot_ne. now left. }
    clear Hquiet. rewrite Hf', Hidc in Ey. unfold inverseRemoveA in Ey.
    destruct (Z.geb_spec (BASE - f_id M f') 0) as [|Hlt]; [unfold BASE in *; lia|].
    assert (Hyo : y <> o) by (intros ->; apply Hno; now left).
    assert (Hyc : container s y = Some c).
    { apply (g_cont M s G c f' y Hf'). rewrite Esl. now left. }
    pose proof Hm1 as [HK1 HN1 HA1 HF1]. pose proof Hm as [HK HN HA HF].
    (* y leaves: the iterator does not visit what is below o *)
    set (t1 := setContainer s1 o None 0).
    assert (Ht1s : forall z d, container t1 z = Some d -> z <> o /\ container s1 z = Some d).
    { intros z d Hz. cbn in Hz. unfold upd in Hz. destruct (Nat.eqb_spec z o); [discriminate|auto]. }
    assert (HAt1 : acyclic t1).
    { intros z Hz. apply (HA1 z). assert (Hb : forall u v, above t1 u v -> above s1 u v).
      { intros u v H. induction H; [apply above_direct; now apply Ht1s|eapply above_step; [apply Ht1s; eassumption|assumption]]. }
      auto. }
    assert (HFt1 : Fin t1).
    { destruct HF1 as [D HD]. exists D. intros z Hz. apply HD. destruct (container t1 z) eqn:E; [|congruence].
      apply Ht1s in E as [_ ->]. discriminate. }
    assert (Hnyo : ~ below s1 o y).
    { intro H. apply Hmayb. apply (below_ext s1 s); [intro; congruence|]. eapply below_up; [exact H|assumption|congruence]. }
    assert (Hwk : forall z, below s1 o z -> ~ below t1 y z).
    { intros z Hz H. apply Hnyo. destruct H as [->|H]; [assumption|]. revert Hz. remember y as a eqn:Ea in H.
      induction H as [d z H|e d z H H' IH]; intro Hz; subst; apply Ht1s in H as [Hne H].
      - eapply below_up; eassumption.
      - apply IH; [reflexivity|]. eapply below_up; eassumption. }
    assert (Hwk2 : forall z, ~ below s1 o z -> (below t1 y z <-> below s1 y z)).
    { intros z Hz. split; [apply below_sub; intros u d H; now apply Ht1s in H|].
      intros [->|H]; [now left|]. right. remember y as a eqn:Ea in H.
      induction H as [d z H|e d z H H' IH]; subst; assert (z <> o) by (intros ->; apply Hz; now left).
      - apply above_direct. cbn. rewrite upd_ne by assumption. congruence.
      - eapply above_step; [cbn; rewrite upd_ne by assumption; exact H|]. apply IH; [|reflexivity].
        intro Hb. apply Hz. eapply below_down; eassumption. }
    destruct (bsc_core M fuel s1 k y None _ t ey (below s1 o) (below t1 y) Ey HA1 HN1)
      as (P1 & P2 & P3 & P4 & P5 & P6 & P7 & _); auto; try discriminate.
    { intros n l0 El z. rewrite <- (walk_ext M n s1 t1) in El by reflexivity.
      apply (walk_below M n t1 (fun _ => False) y l0 El); [|tauto]. apply Agr_of_GInv. apply G1. }
    { now apply below_dec. }
    { intros r z _ Hb H. left. apply HK1 in H. now apply (in_res_below s1 y z r HA1 HN1 Hb). }
    set (k1 := hear_all k ey) in *. set (s2 := setSlot t c f' [o]) in *.
    assert (C2 : forall z, container s2 z = upd (container s) y None z).
    { intro z. cbn. rewrite P4. unfold upd. now rewrite Qc. }
    assert (I2 : forall z, internalResource s2 z = internalResource s z).
    { intro z. cbn. destruct (Nat.eq_dec z y) as [->|Hz]; [|rewrite P6 by assumption; congruence].
      assert (internalResource s y = None) as -> by (destruct (internalResource s y) eqn:E; [pose proof (HN _ _ E); congruence|reflexivity]).
      destruct P7 as [P7|P7]; [assumption|]. rewrite P7, Qr. destruct (internalResource s y) eqn:E; [pose proof (HN _ _ E); congruence|reflexivity]. }
    assert (HA2 : acyclic s2).
    { apply (acyclic_cstep [] s s2 0%nat HA); [|intros ? ? []]. intro z. rewrite C2. unfold upd.
      destruct (Nat.eqb_spec z y); [right; now left|now left]. }
    assert (HF2 : Fin s2).
    { destruct HF as [D HD]. exists D. intros z. rewrite C2. unfold upd. destruct (Nat.eqb_spec z y); [congruence|apply HD]. }
    assert (HN2 : NB s2) by exact P3.
    assert (Hb2 : forall u v, below s2 u v -> below s u v).
    { apply below_sub. intros z d. rewrite C2. unfold upd. destruct (Nat.eqb_spec z y); [discriminate|auto]. }
    assert (Hnyo' : ~ below s o y).
    { intro H. apply Hmayb. eapply below_up; eassumption. }
    assert (Hb2' : forall v, below s o v -> below s2 o v).
    { intros v Hv. assert (Hgen : forall u, above s o u -> above s2 o u).
      { intros u Hu. remember o as a eqn:Ea in Hu |- * at 1. revert Ea.
        induction Hu as [d u H|e d u H H' IH]; intro Ea; subst.
        - apply above_direct. rewrite C2. rewrite upd_ne; [assumption|]. intros ->. apply Hnyo'. right. now apply above_direct.
        - eapply above_step; [rewrite C2; rewrite upd_ne; [exact H|]|now apply IH].
          intros ->. apply Hnyo'. right. eapply above_step; eassumption. }
      destruct Hv as [->|Hv]; [now left|]. right. auto. }
    assert (Hres2 : forall z q, in_res s2 z q -> in_res s z q).
    { intros z q Hz. induction Hz as [z q H'|z d q H1 H2 H3 IH].
      - apply here. now rewrite <- I2.
      - eapply up; [rewrite <- I2; eassumption| |eassumption]. rewrite C2 in H2. unfold upd in H2.
        destruct (Nat.eqb_spec z y); [discriminate|assumption]. }
    assert (Hcy : ~ below s y c) by (apply not_below_container; assumption).
    assert (Hresc : forall q, in_res s2 c q <-> in_res s c q).
    { intro q. apply (move_out s s2 y None); auto. }
    assert (Hres3 : forall z q, in_res s z q -> in_res s2 z q \/ in_res s c q).
    { intros z q Hz. induction Hz as [z q H'|z d q H1 H2 H3 IH].
      - left. apply here. now rewrite I2.
      - destruct (Nat.eq_dec z y) as [->|Hne].
        + right. congruence.
        + destruct IH as [IH|IH]; [left|now right]. eapply up; [rewrite I2; eassumption| |exact IH].
          rewrite C2, upd_ne by assumption. assumption. }
    assert (Hs1o : forall z, below s1 o z <-> below s o z).
    { intro z. split; apply below_ext; intro; congruence. }
    assert (Hk1o : forall q z, below s o z -> (k1 q z = true <-> in_res s o q)).
    { intros q z Hz. rewrite (P2 q z) by (apply Hwk; now apply Hs1o). rewrite (HK q z). now apply in_res_below. }
    assert (Hk1 : forall q z, ~ below s o z -> (k1 q z = true <-> in_res s2 z q)).
    { intros q z Hz. rewrite (P1 q z) by (intro H'; apply Hz; now apply Hs1o).
      split; apply in_res_ext; reflexivity. }
    rewrite hear_app. fold k1.
    destruct (bsc_core M fuel s2 k1 o (Some c) (f_id M f) s' e3 (fun _ => False) (below s2 o) E3 HA2 HN2)
      as (F1 & _ & F3 & F4 & _); auto; try discriminate.
    - intros n l0 El. apply (walk_below M n s2 (fun z => z = c \/ container s o = Some z) o l0 El).
      + intros z Hz u. rewrite (children_ext M s s2 z).
        * rewrite (Agr_of_GInv M s G z) by tauto. rewrite C2. unfold upd. destruct (Nat.eqb_spec u y) as [->|]; [|reflexivity].
          rewrite Hyc. split; [intro E; injection E as <-; tauto|discriminate].
        * intro g. unfold s2. rewrite slot_ne by (left; tauto). rewrite P5. apply Hs. tauto.
      + intros z [->|Hz] Hb; apply Hb2 in Hb; [contradiction|]. now apply (not_below_container s o z HA).
    - tauto.
    - now apply below_dec.
    - intros c' Ec Hb. injection Ec as <-. apply Hb2 in Hb. contradiction.
    - intros c' cf r Ec Hr H'. injection Ec as <-. rewrite (Hcf2 cf H'). destruct (f_resolve M f); [|reflexivity].
      rewrite I2, Hres in Hr by reflexivity. discriminate.
    - intros q z _ Hb Hz. apply Hk1o in Hz; [|now apply Hb2]. destruct (Hres3 o q Hz) as [H'|H']; [now left|].
      right. exists c. split; [reflexivity|]. now apply Hresc.
    - intros q z c' _ Hb _ H' _. apply Hk1o; [now apply Hb2|]. now apply Hres2.
    - constructor.
      + intros q z. apply F1. tauto.
      + assumption.
      + apply (acyclic_cstep [(o, c)] s2 s' c HA2).
        * intro z. rewrite F4. unfold upd. destruct (Nat.eqb_spec z o) as [->|]; [|now left]. right. right. exists c. split; [reflexivity|now left].
        * intros z p [Ep|[]]. injection Ep as <- <-. split; [reflexivity|].
          assert (Hn : ~ below s2 o c) by (intro H'; apply Hb2 in H'; contradiction).
          unfold below in Hn. split; [intros ->|]; tauto.
      + destruct HF2 as [D HD]. exists (o :: D). intros z. rewrite F4. unfold upd.
        destruct (Nat.eqb_spec z o) as [->|]; [now left|]. right. now apply HD.
  Qed.

  (** ** roots *)
  Lemma Mid_roots s s' k' : (forall z, container s' z = container s z) -> acyclic s -> Fin s -> NB s' -> K s' k' -> Mid s' k'.
  Proof.
    intros Hc Ha [D HD] Hn Hk. constructor; auto.
    - intros z Hz. apply (Ha z). apply (above_same s'); [intro; congruence|assumption].
    - exists D. intro z. rewrite Hc. apply HD.
  Qed.

  Lemma root_del s k x q n l : Mid s k -> internalResource s x = Some q -> walk M n s x = Some l ->
    Agr s (fun _ => False) -> Mid (setResource s x None) (hear_all k (map (Det q) l)).
  Proof.
    intros [HK HN HA HF] Hx El A. pose proof (HN x q Hx) as Hcx.
    assert (Hl : forall y, In y l <-> below s x y) by (apply (walk_below M n s (fun _ => False) x l El A); tauto).
    apply (Mid_roots s); auto.
    - intros y r. cbn. unfold upd. destruct (Nat.eqb_spec y x); [discriminate|apply HN].
    - assert (Hc : forall y, container (setResource s x None) y = upd (container s) x None y).
      { intro y. cbn. unfold upd. now destruct (Nat.eqb_spec y x) as [->|]. }
      assert (Hr : forall y, y <> x -> internalResource (setResource s x None) y = internalResource s y).
      { intros y Hy. cbn. now rewrite upd_ne. }
      intros r y. rewrite hear_det, (HK r y), Hl.
      destruct (in_dec Nat.eq_dec y l) as [Hi|Hi]; rewrite Hl in Hi.
      + rewrite (move_in s _ x None Hc Hr HA HN y r Hi). rewrite (in_res_below s x y r HA HN Hi). split.
        * intros [H1 H2]. exfalso. apply H2. split; [|assumption]. apply in_res_inv in H1 as [H1|(H1 & _)]; congruence.
        * intro H. apply in_res_inv in H as [H|(_ & d & H & _)]; [cbn in H; rewrite upd_eq in H; discriminate|].
          rewrite Hc, upd_eq in H. discriminate.
      + rewrite (move_out s _ x None Hc Hr y r Hi). tauto.
  Qed.

  Lemma root_add s k x r n l : Mid s k -> internalResource s x = None -> container s x = None -> walk M n s x = Some l ->
    Agr s (fun _ => False) -> Mid (setResource s x (Some r)) (hear_all k (map (Att r) l)).
  Proof.
    intros [HK HN HA HF] Hx Hcx El A.
    assert (Hl : forall y, In y l <-> below s x y) by (apply (walk_below M n s (fun _ => False) x l El A); tauto).
    apply (Mid_roots s); auto.
    - intros y q. cbn. unfold upd. destruct (Nat.eqb_spec y x) as [->|]; [auto|apply HN].
    - assert (Hc : forall y, container (setResource s x (Some r)) y = upd (container s) x None y).
      { intro y. cbn. unfold upd. now destruct (Nat.eqb_spec y x) as [->|]. }
      assert (Hr : forall y, y <> x -> internalResource (setResource s x (Some r)) y = internalResource s y).
      { intros y Hy. cbn. now rewrite upd_ne. }
      intros q y. rewrite hear_att, (HK q y), Hl.
      destruct (in_dec Nat.eq_dec y l) as [Hi|Hi]; rewrite Hl in Hi.
      + rewrite (move_in s _ x None Hc Hr HA HN y q Hi). rewrite (in_res_below s x y q HA HN Hi). split.
        * intros [H|[-> _]]; [|apply here; cbn; now rewrite upd_eq].
          apply in_res_inv in H as [H|(_ & d & H & _)]; congruence.
        * intro H. right. split; [|assumption]. apply in_res_inv in H as [H|(H & _)]; cbn in H; rewrite upd_eq in H; congruence.
      + rewrite (move_out s _ x None Hc Hr y q Hi). tauto.
  Qed.

  (** ** the contents list *)
  Definition same_place (s s' : state) (x : obj) : Prop :=
    forall y, y <> x -> container s' y = container s y /\ containerFeatureID s' y = containerFeatureID s y.

  Lemma crem_mid s k r Kl x s' es : GInv s -> RInv (view s r Kl) -> In x Kl -> Mid s k ->
    contentsInverseRemoveA M fuel s r x = Some (s', es) ->
    Mid s' (hear_all k es) /\ forall y, container s' y = container s y /\ containerFeatureID s' y = containerFeatureID s y.
  Proof.
    intros G R Hx Hm E. pose proof R as (R1 & _).
    assert (Hr : internalResource s x = Some r).
    { apply (R1 x r). cbn. now rewrite upd_eq. }
    unfold contentsInverseRemoveA in E. apply bindA_inv in E as (s1 & e1 & e2 & E1 & E2 & ->).
    unfold detached in E1. destruct (walk M fuel s x) as [l|] eqn:El; [|discriminate]. injection E1 as <- <-.
    unfold eSetResourceA in E2. rewrite Hr in E2. cbn [bindA justA] in E2.
    rewrite (m_nb s k Hm x r Hr) in E2. cbn in E2. injection E2 as <- <-. rewrite app_nil_r. split; [|auto].
    apply (root_del s k x r fuel l Hm Hr El). now apply Agr_of_GInv.
  Qed.

  Lemma cadd_mid s k r Kl x s' es : GInv s -> RInv (view s r Kl) -> ~ In x Kl -> Mid s k ->
    (forall f, containmentFeature M s x = Some f -> f_resolve M f = false) ->
    contentsInverseAddA M fuel s r x = Some (s', es) -> Mid s' (hear_all k es) /\ same_place s s' x.
  Proof.
    intros G R Hx Hm Hp E. pose proof E as E0. apply contentsInverseAdd_erase in E0.
    destruct (setres_add M W s r Kl x G R Hx) as (s'' & E0' & _ & _ & G' & _). rewrite E0 in E0'. injection E0' as <-. clear E0.
    unfold contentsInverseAddA in E. apply bindA_inv in E as (s1 & e1 & e2 & E1 & E2 & ->).
    unfold attached in E2. destruct (walk M fuel s1 x) as [l2|] eqn:El2; [|discriminate]. injection E2 as <- <-.
    unfold eSetResourceA in E1. apply bindA_inv in E1 as (t1 & d1 & d2 & D1 & D2 & ->).
    apply bindA_inv in D2 as (t2 & d3 & d4 & D3 & D4 & ->). injection D4 as <- <-. rewrite app_nil_r.
    (* the last step, from a state where x is nowhere *)
    assert (Hlast : forall t k1, (forall z, container t z = container t2 z) -> (forall z g, slot t z g = slot t2 z g) ->
              (forall z, internalResource t z = upd (internalResource t2) x None z) ->
              container t x = None -> Mid t k1 -> Mid (setResource t2 x (Some r)) (hear_all k1 (map (Att r) l2))).
    { intros t k1 H1 H2 H3 H4 Hm'. apply (Mid_ext (setResource t x (Some r))).
      - intro z. cbn. now rewrite H1.
      - intro z. cbn. unfold upd. destruct (Nat.eqb_spec z x) as [->|Hne]; [reflexivity|]. rewrite H3. now rewrite upd_ne.
      - apply (root_add t k1 x r fuel l2 Hm'); [rewrite H3; now rewrite upd_eq|assumption| |].
        + rewrite (walk_ext M fuel (setResource t2 x (Some r)) t x) by (intros; cbn; apply H2). assumption.
        + apply (Agr_slots M (setResource t2 x (Some r)) t (fun _ => False)); [intro; cbn; apply H1| |now apply Agr_of_GInv].
          intros y _. split; [tauto|]. intro g. cbn. apply H2. }
    rewrite hear_app.
    destruct (internalResource s x) as [q|] eqn:Er.
    - (* x was a root *)
      pose proof (m_nb s k Hm x q Er) as Hcx.
      apply bindA_inv in D1 as (t0 & c1 & c2 & C1 & C2 & ->).
      destruct (contentsRemove s q x) as [t0'|] eqn:Ec; [|discriminate]. cbn in C1. injection C1 as <- <-.
      assert (F : container t0' = container s /\ internalResource t0' = internalResource s /\ slot t0' = slot s
                    /\ containerFeatureID t0' = containerFeatureID s).
      { unfold contentsRemove in Ec. destruct (removeWithNotification _ _) as [[d cb]|]; [|discriminate].
        injection Ec as <-. destruct (contentsStages_frame q (match cb with [] => [] | _ => [(d, cb)] end) s) as (F1 & F2 & F3 & F4 & _).
        auto. }
      destruct F as (F1 & F2 & F3 & F4).
      unfold detached in C2. destruct (walk M fuel t0' x) as [l1|] eqn:El1; [|discriminate]. injection C2 as <- <-.
      rewrite F1, Hcx in D3. injection D3 as <- <-. cbn [app] in *. rewrite app_nil_r in *. split.
      + rewrite (walk_ext M fuel s t0' x) in El1 by (intros; now rewrite F3).
        apply (Hlast (setResource s x None)).
        * intro z. cbn. now rewrite F1.
        * intros z g. cbn. now rewrite F3.
        * intro z. cbn. now rewrite F2.
        * assumption.
        * apply (root_del s k x q fuel l1 Hm Er El1). now apply Agr_of_GInv.
      + intros y Hy. cbn. now rewrite F1, F4.
    - injection D1 as <- <-. cbn [app]. unfold containmentFeature in Hp. destruct (container s x) as [c|] eqn:Ec.
      + destruct (eContainmentFeature M x c (containerFeatureID s x)) as [f|]; [|discriminate].
        rewrite (Hp f eq_refl) in D3. apply bindA_inv in D3 as (u & c1 & c2 & C1 & C2 & ->).
        destruct (rfc_quiet M W fuel s s x u c1 G eq_refl eq_refl C1) as [Q Hs].
        pose proof (quiet_mid s u c1 k Q Hm) as Hmu. destruct Q as (-> & Qc & Qr & Qf). cbn [app] in *.
        destruct (bsc_mid M fuel u k x None _ t2 c2 (fun y => container s x = Some y) C2 Hmu) as (Rm & P1 & P2 & P3 & P4 & P5); auto; try discriminate.
        * apply (Agr_slots M s u (fun _ => False)); [intro; congruence| |now apply Agr_of_GInv].
          intros y Hy. split; [tauto|]. intro g. now apply Hs.
        * intros y Hy. apply not_below_container; [apply (m_ac _ _ Hmu)|congruence].
        * assert (Hi : internalResource t2 x = None) by (destruct P4 as [H|H]; [assumption|]; rewrite H, Qr; assumption).
          split.
          -- apply (Hlast t2); auto.
             ++ intro z. unfold upd. destruct (Nat.eqb_spec z x) as [->|]; [assumption|reflexivity].
             ++ rewrite P1. now rewrite upd_eq.
          -- intros y Hy. cbn. rewrite P1, upd_ne, P5 by assumption. now rewrite Qc, Qf.
      + injection D3 as <- <-. split; [|intros y Hy; split; reflexivity].
        apply (Hlast s); auto. intro z. unfold upd. now destruct (Nat.eqb_spec z x) as [->|].
  Qed.

  Lemma fold_crem_mid r Rm : forall s Kl k s' es, GInv s -> RInv (view s r Kl) -> NoDup Rm -> incl Rm Kl -> Mid s k ->
    foldA (fun s x => contentsInverseRemoveA M fuel s r x) Rm s = Some (s', es) ->
    Mid s' (hear_all k es) /\ forall y, container s' y = container s y /\ containerFeatureID s' y = containerFeatureID s y.
  Proof.
    induction Rm as [|x Rm IH]; intros s Kl k s' es G R Hnd Hi Hm E; cbn [foldA] in E.
    - injection E as <- <-. auto.
    - apply bindA_inv in E as (s1 & e1 & e2 & E1 & E2 & ->). inversion_clear Hnd as [|? ? Hx Hnd'].
      destruct (crem_mid s k r Kl x s1 e1 G R (Hi x (or_introl eq_refl)) Hm E1) as [Hm1 Hp1].
      apply contentsInverseRemove_erase in E1.
      destruct (setres_rem M s r Kl x G R (Hi x (or_introl eq_refl))) as (s1' & E1' & _ & _ & G1 & R1).
      rewrite E1 in E1'. injection E1' as <-. rewrite hear_app.
      destruct (IH s1 (rm x Kl) (hear_all k e1) s' e2 G1 R1 Hnd') as [Hm2 Hp2]; auto.
      { intros y Hy. apply rm_in. split; [apply Hi; now right|]. intros ->. contradiction. }
      split; [assumption|]. intro y. destruct (Hp1 y) as [<- <-]. apply Hp2.
  Qed.

  Lemma fold_cadd_mid r A : forall s Kl k s' es, GInv s -> RInv (view s r Kl) -> NoDup A ->
    (forall x, In x A -> ~ In x Kl) -> (forall x f, In x A -> containmentFeature M s x = Some f -> f_resolve M f = false) ->
    Mid s k -> foldA (fun s x => contentsInverseAddA M fuel s r x) A s = Some (s', es) -> Mid s' (hear_all k es).
  Proof.
    induction A as [|x A IH]; intros s Kl k s' es G R Hnd Hd Hp Hm E; cbn [foldA] in E.
    - injection E as <- <-. assumption.
    - apply bindA_inv in E as (s1 & e1 & e2 & E1 & E2 & ->). inversion_clear Hnd as [|? ? Hx Hnd'].
      destruct (cadd_mid s k r Kl x s1 e1 G R (Hd x (or_introl eq_refl)) Hm (fun f => Hp x f (or_introl eq_refl)) E1) as [Hm1 Hp1].
      apply contentsInverseAdd_erase in E1.
      destruct (setres_add M W s r Kl x G R (Hd x (or_introl eq_refl))) as (s1' & E1' & _ & _ & G1 & R1).
      rewrite E1 in E1'. injection E1' as <-. rewrite hear_app.
      apply (IH s1 (Kl ++ [x]) (hear_all k e1) s' e2 G1 R1 Hnd'); auto.
      + intros y Hy. rewrite in_app_iff. intros [Hv|[->|[]]]; [|contradiction]. eapply Hd; [right|]; eassumption.
      + intros y f Hy. assert (Hne : y <> x) by (intros ->; contradiction). destruct (Hp1 y Hne) as [H1 H2].
        unfold containmentFeature. rewrite H1, H2. apply (Hp y f). now right.
  Qed.

  Lemma contentsOp_mid s k r p s' es : GInv s -> RInv s -> Mid s k -> legal M s (OContents r p) ->
    proper_call M s (OContents r p) -> contentsOpA M fuel s r p = Some (s', es) -> Mid s' (hear_all k es).
  Proof.
    intros G R Hm Hok Hprop E. cbn in Hok. unfold contentsOpA in E.
    destruct (list_effect (contents s r) p) as [[[st Rm] A]|] eqn:El; [|discriminate].
    pose proof R as (R1 & R2 & R3 & R4).
    apply list_effect_good in El as [El S]; [|apply R2|assumption].
    destruct (effect_elements _ _ _ _ _ (R2 r) El) as (N1 & N2 & Hel). destruct El as (_ & Hi & HA & Hd & Harg).
    destruct (contentsStages_frame r st s) as (E1 & E2 & E3 & E4 & E5 & E6 & E7).
    apply bindA_inv in E as (s1 & e1 & e2 & D1 & D2 & ->). rewrite hear_app.
    remember (contentsStages s r st) as s0.
    assert (G0 : GInv s0) by (apply (GInv_ext M _ _ G); intros; congruence).
    assert (R0 : RInv (view s0 r (contents s r))).
    { assert (Ec : forall q, contents (view s0 r (contents s r)) q = contents s q).
      { intro q. cbn. unfold upd. destruct (Nat.eqb_spec q r) as [->|Hq]; [reflexivity|]. now apply E5. }
      apply (RInv_ext M s); auto; try (intros; cbn; congruence).
      - intros q y. now rewrite Ec.
      - intro q. rewrite Ec. apply R2.
      - intro q. rewrite Ec. cbn. unfold upd. destruct (Nat.eqb_spec q r) as [->|Hq]; [reflexivity|].
        destruct (E5 q Hq) as [_ ->]. apply R3. }
    assert (Hm0 : Mid s0 k) by (now apply (Mid_same s)).
    destruct (fold_crem_mid r Rm s0 (contents s r) k s1 e1 G0 R0 N2 Hi Hm0 D1) as [Hm1 Hp1].
    apply (fold_erase _ (fun s x => eSetResource M s x None)) in D1; [|intros; apply contentsInverseRemove_erase].
    destruct (fold_setres_rem M r Rm s0 (contents s r) G0 R0 N2 Hi) as (s1' & K1 & D1' & _ & _ & G1 & RV1 & Hl1).
    rewrite D1 in D1'. injection D1' as <-.
    eapply (fold_cadd_mid r A s1 K1); eauto.
    - intros x Hx Hv. apply Hl1 in Hv as [Hv _]. exact (Hd x Hx Hv).
    - intros x f Hx. destruct (Hp1 x) as [H1 H2]. unfold containmentFeature. rewrite H1, H2, E1, E2.
      apply (Hprop x f). destruct (Harg x Hx) as [H|H]; [assumption|]. destruct (Hd x Hx H).
  Qed.

  (** ** every call *)
  Lemma gstep_mid s k p s' es : GInv s -> RInv s -> Mid s k -> legal M s p -> safe_call M s p -> proper_call M s p ->
    gstepA M fuel s p = Some (s', es) -> Mid s' (hear_all k es).
  Proof.
    intros G R Hm L Sf Pr E. destruct p as [o f v|o f|o f p|r p|r]; cbn [gstepA] in E.
    - destruct L as (Hmf & Hf & Ht). rewrite (accessed_own M W) in E by assumption.
      destruct (isContainer M f) eqn:Ec.
      { destruct v as [c|].
        - destruct Sf as [_ S2], Pr as [_ P2]. eapply (set_container_mid s k o f c); eauto.
        - unfold eSetA in E. rewrite Ec in E. cbv zeta in E.
          match type of E with (if ?b then _ else _) = _ => destruct b end; [|injection E as <- <-; assumption].
          apply (unset_container_mid s k o (getFeatureID M o f) s' es G Hm). rewrite <- E.
          destruct (whenA (container s o) s _) as [[s1 e1]|]; [|reflexivity]. cbn.
          destruct (basicSetContainerA M fuel s1 o None _) as [[u e]|]; reflexivity. }
      destruct (isBidirectional M f || f_cont M f) eqn:Eb.
      { eapply (eSet_inverse_mid M W fuel s k o f v); eauto.
        - intros x -> Hcf. now apply Sf.
        - intros x -> Hcf Hkr. now apply Pr. }
      unfold eSetA in E. rewrite Ec, Eb in E. injection E as <- <-. now apply (Mid_same s).
    - destruct L as (Hf & Hmf). rewrite (accessed_own M W) in E by assumption.
      destruct (isContainer M f) eqn:Ec.
      { unfold eUnsetA in E. rewrite Ec in E. destruct (container s o) as [c|] eqn:Eco; [|injection E as <- <-; assumption].
        apply (unset_container_mid s k o (getFeatureID M o f) s' es G Hm). rewrite Eco. exact E. }
      destruct (isBidirectional M f || f_cont M f) eqn:Eb.
      { destruct (f_many M f) eqn:Em.
        - destruct (Hmf eq_refl) as [H1 H2]. unfold isBidirectional in Eb. rewrite H1, H2 in Eb. discriminate.
        - eapply (eUnset_inverse_mid M W fuel s k o f); eauto. }
      unfold eUnsetA in E. rewrite Ec, Eb in E. injection E as <- <-. now apply (Mid_same s).
    - pose proof L as (_ & Hf & _). rewrite (accessed_own M W) in E by assumption.
      eapply (listOp_mid M W fuel s k o f p); eauto.
    - eapply contentsOp_mid; eauto.
    - destruct L.
  Qed.
End AttachGraph.

Lemma init_mid : Mid init (fun _ _ => false).
Proof.
  constructor.
  - intros r x. split; [discriminate|]. intro H. apply in_res_inv in H as [H|(_ & c & H & _)]; discriminate.
  - intros x r H. discriminate.
  - intros x H. remember x as y in H at 1. clear Heqy. induction H; cbn in *; discriminate.
  - exists []. cbn. tauto.
Qed.

Lemma history_mid M s k : wf_metamodel M -> history M s k -> GInv M s /\ RInv M s /\ Mid s k /\ reachable_safe M s.
Proof.
  intros W H. induction H as [|s k p n s' es H (G & R & Hm & Hr) L Sf Pr E].
  - destruct (init_ok M) as [G R]. split; [assumption|]. split; [assumption|]. split; [apply init_mid|constructor].
  - pose proof (gstepA_erase M n s p s' es E) as Eg.
    destruct (gstep_ok M W s p G R L) as [[E' _]|(s'' & E' & _ & G' & R')]; [congruence|].
    assert (s'' = s') as -> by congruence. split; [assumption|]. split; [assumption|]. split.
    + exact (gstep_mid M W n s k p s' es G R Hm L Sf Pr E).
    + econstructor; eassumption.
Qed.

Lemma local_proper : forall M s k p, wf_metamodel M -> no_cross_resource M -> history M s k ->
  legal M s p -> proper_call M s p.
Proof.
  intros M s k p W Hn H L. destruct (history_mid M s k W H) as (G & _ & _ & _).
  destruct p as [o f [v|]|o f|o f p|r p|r]; cbn; auto.
  - split; [intros Hf Hk; rewrite (Hn f Hf) in Hk; discriminate|]. intros Hc Hr.
    destruct (container_pair M W f Hc) as (f' & Eg & Eg' & Hf' & _). pose proof (Hn f' Hf') as Hk.
    unfold keeps_resource in Hk. rewrite Eg' in Hk. congruence.
  - intros Hf Hk. rewrite (Hn f Hf) in Hk. discriminate.
  - intros x f _ Hcf. unfold containmentFeature in Hcf. destruct (container s x) as [c|] eqn:Ec; [|discriminate].
    destruct (g_ex M s G x c Ec) as (f' & Hf' & Hx). destruct (g_cont M s G c f' x Hf' Hx) as [_ Hid].
    destruct (g_typed M s G c f' x Hx) as [[T1 T2] _]. pose proof (Hn f' Hf') as Hk. unfold keeps_resource in Hk.
    rewrite Hid in Hcf. unfold eContainmentFeature, code, BASE in Hcf. destruct (f_opp M f') as [g|] eqn:Eg.
    + specialize (T2 g eq_refl). apply (feat M W) in T2 as (Hat & _ & H0).
      destruct (Z.leb_spec (f_id M g) (-1)); [lia|]. congruence.
    + apply (feat M W) in T1 as (Hat & _ & H0). destruct (Z.leb_spec (-1 - f_id M f') (-1)); [|lia].
      replace (-1 - (-1 - f_id M f')) with (f_id M f') in Hcf by lia. rewrite Hat in Hcf. congruence.
Qed.
