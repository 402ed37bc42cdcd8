From Coq Require Import Setoid.
From Verif Require Import Base ListModel ListSpec ListProofs NotifyModel NotifyProofs
  GraphModel GraphSpec GraphProofs GraphInv GraphSteps GraphAcyclic AttachModel AttachErase AttachSpec AttachProofs.

Section Steps.
  Context (M : metamodel) (W : wf_metamodel M) (fuel : nat).
  Notation GInv := (GInv M). Notation RInv := (RInv M). Notation Agr := (Agr M).

  Lemma Agr_of_GInv st : GInv st -> Agr st (fun _ => False).
  Proof.
    intros G y _ z. rewrite children_in. split.
    - intros (f & _ & Hf & Hz). apply (g_cont M st G y f z Hf Hz).
    - intro Hz. destruct (g_ex M st G z y Hz) as (f & Hf & Hin). exists f.
      destruct (g_typed M st G _ _ _ Hin) as [[T _] _]. auto.
  Qed.
  Lemma Agr_slots s s' (B B' : obj -> Prop) : (forall z, container s' z = container s z) ->
    (forall y, ~ B' y -> ~ B y /\ forall f, slot s' y f = slot s y f) -> Agr s B -> Agr s' B'.
  Proof.
    intros Hc Hs A y Hy z. destruct (Hs y Hy) as [H1 H2]. rewrite (children_ext M s s' y H2), Hc. now apply A.
  Qed.
  Lemma Agr_view s o f V : GInv (setSlot s o f V) -> Agr s (eq o).
  Proof.
    intro G. apply (Agr_slots (setSlot s o f V) s (fun _ => False)); [reflexivity| |now apply Agr_of_GInv].
    intros y Hy. split; [tauto|]. intro k. rewrite slot_ne by (left; congruence). reflexivity.
  Qed.

  (** ** calls that announce nothing *)
  Definition quiet (s s' : state) (es : list announce) : Prop :=
    es = [] /\ container s' = container s /\ internalResource s' = internalResource s
    /\ containerFeatureID s' = containerFeatureID s.
  Lemma quiet_mid s s' es k : quiet s s' es -> Mid s k -> Mid s' (hear_all k es).
  Proof. intros (-> & H1 & H2 & _) Hm. now apply (Mid_same s). Qed.

  Lemma inverseRemove_quiet s c y k s' es : In k (features M c) -> isContainer M k = false ->
    inverseRemoveA M fuel s c y (f_id M k) = Some (s', es) -> quiet s s' es /\ exists l, s' = setSlot s c k l.
  Proof.
    intros Hk Hc E. apply (feat M W) in Hk as (Hat & _ & H0). unfold inverseRemoveA in E.
    destruct (Z.geb_spec (f_id M k) 0); [|lia]. unfold basicInverseRemoveA in E. rewrite Hat in E.
    destruct (f_many M k).
    - destruct (removeWithNotification _ _) as [[l cb]|]; [|discriminate]. injection E as <- <-.
      split; [repeat split|eauto].
    - rewrite Hc in E. injection E as <- <-. split; [repeat split|eauto].
  Qed.

  Lemma rfc_quiet s st x s' es : GInv st -> container st x = container s x -> containerFeatureID st x = containerFeatureID s x ->
    removeFromContainerA M fuel s x = Some (s', es) ->
    quiet s s' es /\ (forall a k, container s x <> Some a -> slot s' a k = slot s a k).
  Proof.
    intros G E1 E2 E. unfold removeFromContainerA in E. cbv zeta in E. destruct (container s x) as [c|] eqn:Ec.
    2: { injection E as <- <-. split; [repeat split|reflexivity]. }
    destruct (g_ex M st G x c) as (f0 & Hf0 & Hx); [congruence|].
    destruct (g_cont M st G _ _ _ Hf0 Hx) as [_ Hcode]. destruct (g_typed M st G _ _ _ Hx) as [[T1 T2] Hnc].
    assert (Hgo : inverseRemoveA M fuel s c x (f_id M f0) = Some (s', es) ->
      quiet s s' es /\ (forall a k, Some c <> Some a -> slot s' a k = slot s a k)).
    { intro H. apply inverseRemove_quiet in H as [H [l ->]]; auto. split; [assumption|].
      intros a k Hne. apply slot_ne. left. congruence. }
    rewrite <- E2, Hcode in E. unfold GraphInv.code in E. destruct (f_opp M f0) as [g0|] eqn:Eg.
    - specialize (T2 _ eq_refl). apply (feat M W) in T2 as (Hat & _ & H0).
      destruct (Z.geb_spec (f_id M g0) 0); [|lia]. rewrite Hat in E.
      destruct (wf_opp M W _ _ Eg) as [Eg' _]. rewrite Eg' in E. auto.
    - apply (feat M W) in T1 as (_ & _ & H0). destruct (Z.geb_spec (-1 - f_id M f0) 0); [lia|].
      unfold BASE in E. replace (-1 - (-1 - f_id M f0)) with (f_id M f0) in E by lia. auto.
  Qed.

  (** resources of objects are only taken away *)
  Definition loses (s s' : state) : Prop := forall y, internalResource s' y = None \/ internalResource s' y = internalResource s y.
  Lemma loses_refl s s' : internalResource s' = internalResource s -> loses s s'.
  Proof. intros E y. right. now rewrite E. Qed.
  Lemma loses_trans a b c : loses a b -> loses b c -> loses a c.
  Proof. intros H1 H2 y. destruct (H2 y) as [E|E]; [now left|]. rewrite E. apply H1. Qed.
  Lemma loses_one s s' x : (forall y, y <> x -> internalResource s' y = internalResource s y) ->
    (internalResource s' x = None \/ internalResource s' x = internalResource s x) -> loses s s'.
  Proof. intros H1 H2 y. destruct (Nat.eq_dec y x) as [->|]; auto. Qed.

  Lemma keeps_feature o f x cf : f_cont M f = true -> link_typed M o f x ->
    eContainmentFeature M x o (GraphInv.code M f) = Some cf -> f_resolve M cf = keeps_resource M f.
  Proof.
    intros Hf [T1 T2]. unfold eContainmentFeature, GraphInv.code, keeps_resource, BASE.
    destruct (f_opp M f) as [g|] eqn:Eg.
    - specialize (T2 _ eq_refl). apply (feat M W) in T2 as (Hat & _ & H0).
      destruct (Z.leb_spec (f_id M g) (-1)); [lia|]. intro E. rewrite Hat in E. congruence.
    - apply (feat M W) in T1 as (Hat & _ & H0).
      destruct (Z.leb_spec (-1 - f_id M f) (-1)); [|lia].
      replace (-1 - (-1 - f_id M f)) with (f_id M f) by lia. intro E. rewrite Hat in E. congruence.
  Qed.

  (** ** inverses of the owner's list *)
  Lemma rem_mid s o f x V k s' es : GInv (setSlot s o f V) -> In x V -> Mid s k ->
    listInverseRemoveA M fuel s o f x = Some (s', es) -> Mid s' (hear_all k es) /\ loses s s'.
  Proof.
    intros G Hx Hm E.
    assert (HxV : In x (slot (setSlot s o f V) o f)) by now rewrite slot_eq.
    destruct (g_typed M _ G _ _ _ HxV) as [[T1 T2] Hnc].
    assert (Hq : quiet s s' es -> Mid s' (hear_all k es) /\ loses s s').
    { intro Hq. split; [now apply (quiet_mid s)|]. apply loses_refl, Hq. }
    assert (Hcon : f_cont M f = true -> forall id, basicSetContainerA M fuel s x None id = Some (s', es) ->
              Mid s' (hear_all k es) /\ loses s s').
    { intros Hf id Eb. destruct (g_cont M _ G _ _ _ Hf HxV) as [Hc _]. cbn in Hc.
      destruct (bsc_mid M fuel s k x None id s' es (eq o) Eb Hm (Agr_view s o f V G)) as (R1 & _ & _ & R4 & R5 & _);
        [|discriminate|discriminate|].
      - intros y <-. apply not_below_container; [apply (m_ac s k Hm)|assumption].
      - split; [assumption|]. now apply (loses_one s s' x). }
    unfold listInverseRemoveA in E. destruct (f_opp M f) as [g|] eqn:Eg.
    - specialize (T2 _ eq_refl). destruct (f_cont M f) eqn:Ef.
      + destruct (opp_container M W f g Ef Eg) as (Hgc & Hgm & _ & _).
        apply (feat M W) in T2 as (Hat & Hid & H0). unfold inverseRemoveA in E.
        destruct (Z.geb_spec (f_id M g) 0); [|lia]. unfold basicInverseRemoveA in E. rewrite Hat, Hgm, Hgc in E. eauto.
      + destruct (noncont_pair M W f g Eg Ef Hnc) as (_ & _ & Hcg & _).
        apply inverseRemove_quiet in E as [Hq' _]; auto.
    - destruct (f_cont M f) eqn:Ef.
      + apply (feat M W) in T1 as (_ & _ & H0). unfold inverseRemoveA in E.
        destruct (Z.geb_spec (BASE - f_id M f) 0); [unfold BASE in *; lia|]. eauto.
      + injection E as <- <-. apply Hq. repeat split.
  Qed.

  Lemma relink_mid s o f x V k s' es : GInv (setSlot s o f V) -> Mid s k -> f_cont M f = true -> link_typed M o f x ->
    may_contain s o x -> (keeps_resource M f = true -> internalResource s x = None) ->
    (let# s1 := removeFromContainerA M fuel s x in basicSetContainerA M fuel s1 x (Some o) (GraphInv.code M f)) = Some (s', es) ->
    Mid s' (hear_all k es) /\ loses s s'.
  Proof.
    intros G Hm Hf Ht Hmay Hk E. apply bindA_inv in E as (s1 & e1 & e2 & E1 & E2 & ->).
    destruct (rfc_quiet s (setSlot s o f V) x s1 e1 G eq_refl eq_refl E1) as [Q Hs1].
    pose proof (quiet_mid s s1 e1 k Q Hm) as Hm1. destruct Q as (-> & Qc & Qr & _). cbn [hear_all fold_left app] in *.
    assert (Hb : forall y, below s1 x y -> below s x y) by (apply below_ext; intro; congruence).
    destruct (bsc_mid M fuel s1 k x (Some o) _ s' e2 (fun y => y = o \/ container s x = Some y) E2 Hm1) as (R1 & _ & _ & R4 & R5 & _).
    - apply (Agr_slots s s1 (eq o)); [intro; congruence| |now apply (Agr_view s o f V)].
      intros y Hy. split; [intros <-; tauto|]. intro g. apply Hs1. tauto.
    - intros y [->|Hc] H; apply Hb in H; [now apply (may_not_below s o x)|].
      now apply (not_below_container s x y (m_ac s k Hm)).
    - intros c' Ec H. injection Ec as <-. apply Hb in H. now apply (may_not_below s o x).
    - intros c' cf r Ec Hr Hcf. injection Ec as <-. rewrite (keeps_feature o f x cf Hf Ht Hcf).
      destruct (keeps_resource M f); [|reflexivity]. rewrite Qr, Hk in Hr by reflexivity. discriminate.
    - split; [assumption|]. apply (loses_trans s s1); [now apply loses_refl|]. now apply (loses_one s1 s' x).
  Qed.

  Lemma add_mid s o f x V k s' es : GInv (setSlot s o f V) -> Mid s k -> link_typed M o f x -> isContainer M f = false ->
    (f_cont M f = true -> may_contain s o x) ->
    (f_cont M f = true -> keeps_resource M f = true -> internalResource s x = None) ->
    listInverseAddA M fuel s o f x = Some (s', es) -> Mid s' (hear_all k es) /\ loses s s'.
  Proof.
    intros G Hm Ht Hnc Hmay Hk E.
    assert (Hq : quiet s s' es -> Mid s' (hear_all k es) /\ loses s s').
    { intro Hq. split; [now apply (quiet_mid s)|]. apply loses_refl, Hq. }
    pose proof Ht as [T1 T2]. unfold listInverseAddA in E. destruct (f_opp M f) as [g|] eqn:Eg.
    - specialize (T2 _ eq_refl). pose proof T2 as T2'. apply (feat M W) in T2 as (Hat & Hid & H0).
      unfold inverseAddA in E. destruct (Z.geb_spec (f_id M g) 0); [|lia].
      unfold basicInverseAddA in E. rewrite Hat in E. destruct (f_cont M f) eqn:Ef.
      + destruct (opp_container M W f g Ef Eg) as (Hgc & Hgm & _ & _). rewrite Hgm, Hgc, Hid in E.
        apply (relink_mid s o f x V k s' es G Hm Ef Ht (Hmay eq_refl) (Hk eq_refl)).
        unfold GraphInv.code. rewrite Eg. exact E.
      + destruct (noncont_pair M W f g Eg Ef Hnc) as (Hgf & Hgc & Hcg & _). rewrite Hcg in E.
        destruct (f_many M g).
        { cbn in E. injection E as <- <-. apply Hq. repeat split. }
        apply bindA_inv in E as (s1 & e1 & e2 & E1 & E2 & ->). injection E2 as <- <-.
        assert (Q : quiet s s1 e1).
        { destruct (slot s x g) as [|y l] eqn:Es; [injection E1 as <- <-; repeat split|].
          rewrite Hgc, Hgf in E1.
          assert (Hy : In y (slot (setSlot s o f V) x g)).
          { rewrite slot_ne; [rewrite Es; now left|]. right. destruct (wf_opp M W f g Eg). auto. }
          destruct (g_typed M _ G _ _ _ Hy) as [[_ Ty] _]. specialize (Ty _ Hgf).
          pose proof Ty as Ty'. apply (feat M W) in Ty' as (_ & Hidf & _). rewrite Hidf in E1.
          now apply inverseRemove_quiet in E1 as [Q _]. }
        apply Hq. destruct Q as (-> & Q1 & Q2 & Q3). repeat split; assumption.
    - destruct (f_cont M f) eqn:Ef; [|injection E as <- <-; apply Hq; repeat split].
      apply (feat M W) in T1 as (_ & _ & H0). unfold inverseAddA in E.
      destruct (Z.geb_spec (BASE - f_id M f) 0); [unfold BASE in *; lia|].
      apply (relink_mid s o f x V k s' es G Hm Ef Ht (Hmay eq_refl) (Hk eq_refl)).
      unfold GraphInv.code. rewrite Eg. exact E.
  Qed.

  (** going up from o is not changed by links put below o *)
  Lemma up_keep L s s' o d : cstep L s s' -> (forall y p, In (y, p) L -> p = o /\ may_contain s o y) ->
    above s' d o -> above s d o.
  Proof.
    intros Hc HL.
    assert (Hup : forall x, above s' d x -> x = o \/ above s x o -> above s d x).
    { intros x H. induction H as [c x H|c d x H H' IH]; intro Hx.
      - destruct (Hc x) as [E|[E|(p & E & Hp)]]; [|congruence|].
        + apply above_direct. congruence.
        + destruct (HL _ _ Hp) as [-> [H1 H2]]. destruct Hx; contradiction.
      - destruct (Hc x) as [E|[E|(p & E & Hp)]]; [|congruence|].
        + rewrite H in E. eapply above_step; [symmetry; exact E|]. apply IH. right.
          destruct Hx as [->|Hx]; [now apply above_direct|]. eapply above_trans; [|exact Hx]. now apply above_direct.
        + destruct (HL _ _ Hp) as [-> [H1 H2]]. destruct Hx; contradiction. }
    intro H. apply Hup; auto.
  Qed.
  Lemma may_keep L s s' o x : cstep L s s' -> (forall y p, In (y, p) L -> p = o /\ may_contain s o y) ->
    may_contain s o x -> may_contain s' o x.
  Proof. intros H1 H2 [H3 H4]. split; [assumption|]. intro H. apply H4. eapply up_keep; eassumption. Qed.

  (** ** list operations *)
  Lemma fold_rem_mid o f R : forall s V k s' es, GInv (setSlot s o f V) -> RInv s -> NoDup R -> incl R V -> Mid s k ->
    foldA (fun s x => listInverseRemoveA M fuel s o f x) R s = Some (s', es) -> Mid s' (hear_all k es) /\ loses s s'.
  Proof.
    induction R as [|x R IH]; intros s V k s' es G Rs Hnd Hi Hm E; cbn [foldA] in E.
    - injection E as <- <-. split; [assumption|now apply loses_refl].
    - apply bindA_inv in E as (s1 & e1 & e2 & E1 & E2 & ->). inversion_clear Hnd as [|? ? Hx Hnd'].
      destruct (rem_mid s o f x V k s1 e1 G (Hi x (or_introl eq_refl)) Hm E1) as [Hm1 Hl1].
      apply listInverseRemove_erase in E1.
      destruct (rem_ok M W s o f x V G Rs (Hi x (or_introl eq_refl))) as (s1' & E1' & _ & G1 & R1).
      rewrite E1 in E1'. injection E1' as <-. rewrite hear_app.
      destruct (IH s1 (rm x V) (hear_all k e1) s' e2 G1 R1 Hnd') as [Hm2 Hl2]; auto.
      { intros y Hy. apply rm_in. split; [apply Hi; now right|]. intros ->. contradiction. }
      split; [assumption|]. now apply (loses_trans s s1).
  Qed.

  Lemma fold_add_mid o f A : f_many M f = true -> isContainer M f = false ->
    forall s V k s' es, GInv (setSlot s o f V) -> RInv s -> NoDup A -> Mid s k ->
    (forall x, In x A -> ~ In x V) -> (forall x, In x A -> link_typed M o f x) ->
    (f_cont M f = true -> forall x, In x A -> may_contain s o x) ->
    (f_cont M f = true -> keeps_resource M f = true -> forall x, In x A -> internalResource s x = None) ->
    foldA (fun s x => listInverseAddA M fuel s o f x) A s = Some (s', es) -> Mid s' (hear_all k es).
  Proof.
    intros Hmf Hc. induction A as [|x A IH]; intros s V k s' es G Rs Hnd Hm Hd Ht Hmay Hk E; cbn [foldA] in E.
    - injection E as <- <-. assumption.
    - apply bindA_inv in E as (s1 & e1 & e2 & E1 & E2 & ->). inversion_clear Hnd as [|? ? Hx Hnd'].
      assert (In x (x :: A)) as Hin by now left.
      destruct (add_mid s o f x V k s1 e1 G Hm (Ht x Hin) Hc (fun h => Hmay h x Hin) (fun h h' => Hk h h' x Hin) E1) as [Hm1 Hl1].
      apply listInverseAdd_erase in E1.
      destruct (add_ok M W s o f x V G Rs) as (s1' & E1' & _ & G1 & R1); auto; [congruence|].
      rewrite E1 in E1'. injection E1' as <-. rewrite hear_app.
      apply (IH s1 (V ++ [x]) (hear_all k e1) s' e2 G1 R1 Hnd'); auto.
      + intros y Hy. rewrite in_app_iff. intros [Hv|[->|[]]]; [|contradiction]. eapply Hd; [right|]; eassumption.
      + intros y Hy. apply Ht. now right.
      + intros Hf y Hy. eapply (may_keep [(x, o)]); [eapply (listInverseAdd_cstep M W); [exact E1|now apply Ht|intros _; now left]| |].
        * intros u p [Ep|[]]. injection Ep as <- <-. auto.
        * apply Hmay; [assumption|now right].
      + intros Hf Hkr y Hy. destruct (Hl1 y) as [H|H]; [assumption|]. rewrite H. apply Hk; auto. now right.
  Qed.

  Lemma listOp_mid s k o f p s' es : GInv s -> RInv s -> Mid s k -> legal M s (OList o f p) -> safe_call M s (OList o f p) ->
    proper_call M s (OList o f p) -> listOpA M fuel s o f p = Some (s', es) -> Mid s' (hear_all k es).
  Proof.
    intros G R Hm (Hmf & Hf & Hok & Hargs) Hsafe Hprop E. unfold listOpA in E.
    destruct (list_effect (slot s o f) p) as [[[st Rm] A]|] eqn:El; [|discriminate].
    pose proof (g_nodup M s G o f) as Hnd.
    apply list_effect_good in El as [El _]; [|assumption|assumption].
    destruct (effect_elements _ _ _ _ _ Hnd El) as (N1 & N2 & Hel). destruct El as (_ & Hi & HA & Hd & Harg).
    pose proof (many_not_container M W f Hmf) as Hnc.
    apply bindA_inv in E as (s1 & e1 & e2 & E1 & E2 & ->). rewrite hear_app.
    set (s0 := setSlot s o f (final (slot s o f) st)) in *.
    assert (G0 : GInv (setSlot s0 o f (slot s o f))) by (now apply (GInv_view M)).
    assert (Hm0 : Mid s0 k) by (now apply (Mid_same s)).
    destruct (fold_rem_mid o f Rm s0 (slot s o f) k s1 e1 G0 R N2 Hi Hm0 E1) as [Hm1 Hl1].
    apply (fold_erase _ (fun s x => listInverseRemove M s o f x)) in E1; [|intros; apply listInverseRemove_erase].
    destruct (fold_rem M W o f Rm s0 (slot s o f) G0 R N2 Hi) as (s1' & V1 & E1' & Hs1 & G1 & R1 & HV1).
    rewrite E1 in E1'. injection E1' as <-.
    assert (Hin : forall x, In x A -> In x (op_args p)).
    { intros x Hx. destruct (Harg x Hx) as [H|H]; [assumption|]. destruct (Hd x Hx H). }
    eapply (fold_add_mid o f A Hmf Hnc s1 V1); eauto.
    - intros x Hx Hv. apply HV1 in Hv as [Hv _]. exact (Hd x Hx Hv).
    - intros Hcf x Hx. eapply (may_keep [] s0); [|intros ? ? []|].
      + eapply foldM_cstep; [|exact E1]. cbv beta. intros ? ? ? ? Hw. exact (listInverseRemove_cstep M _ _ _ _ _ _ Hw).
      + destruct (Hsafe Hcf x (Hin x Hx)) as [H1 H2]. split; [assumption|]. intro H. apply H2. revert H. apply above_same. reflexivity.
    - intros Hcf Hkr x Hx. destruct (Hl1 x) as [H|H]; [assumption|]. rewrite H. exact (Hprop Hcf Hkr x (Hin x Hx)).
  Qed.

  (** ** single-valued references *)
  Lemma eSet_inverse_mid s k o f v s' es : GInv s -> RInv s -> Mid s k -> In f (features M o) -> f_many M f = false ->
    isContainer M f = false -> (isBidirectional M f || f_cont M f) = true ->
    (forall x, v = Some x -> link_typed M o f x) ->
    (forall x, v = Some x -> f_cont M f = true -> may_contain s o x) ->
    (forall x, v = Some x -> f_cont M f = true -> keeps_resource M f = true -> internalResource s x = None) ->
    eSetA M fuel s o f v = Some (s', es) -> Mid s' (hear_all k es).
  Proof.
    intros G R Hm Hf Hmf Hnc Hb Ht Hmay Hk E. unfold eSetA in E. rewrite Hnc, Hb in E. cbv zeta in E.
    pose proof (g_single M s G o f Hmf) as Hsi.
    assert (Hold : slot s o f = to_list (hd_error (slot s o f))).
    { destruct (slot s o f) as [|y [|z l]]; cbn in *; [reflexivity|reflexivity|lia]. }
    destruct (some_eqb (hd_error (slot s o f)) v); [injection E as <- <-; assumption|].
    apply bindA_inv in E as (s2 & e & e' & E & E3 & ->). injection E3 as <- <-. rewrite app_nil_r.
    assert (Hmain : (let# s1 := whenA (hd_error (slot s o f)) s (fun y => listInverseRemoveA M fuel s o f y) in
                     whenA v s1 (fun x => listInverseAddA M fuel s1 o f x)) = Some (s2, e)).
    { unfold listInverseAddA, listInverseRemoveA. destruct (f_opp M f) as [g|] eqn:Eg.
      - rewrite <- E. clear E.
        assert (E1 : whenA (hd_error (slot s o f)) s (fun y => inverseRemoveA M fuel s y o (f_id M g))
                   = whenA (hd_error (slot s o f)) s (fun y => inverseRemoveA M fuel s y o (getFeatureID M y g))).
        { destruct (hd_error (slot s o f)) as [y|]; [|reflexivity]. cbn [whenA].
          assert (Hy : In y (slot s o f)) by (rewrite Hold; now left).
          destruct (g_typed M s G _ _ _ Hy) as [[_ T2] _]. specialize (T2 _ Eg).
          apply (feat M W) in T2 as (_ & -> & _). reflexivity. }
        rewrite E1. clear E1. destruct (whenA (hd_error (slot s o f)) s _) as [[s1 e1]|]; [|reflexivity]. cbn [bindA].
        destruct v as [x|]; [|reflexivity]. cbn [whenA]. destruct (Ht x eq_refl) as [_ T2]. specialize (T2 _ Eg).
        apply (feat M W) in T2 as (_ & -> & _). reflexivity.
      - unfold isBidirectional in Hb. rewrite Eg in Hb. cbn in Hb. rewrite Hb.
        pose proof Hf as Hf'. apply (feat M W) in Hf' as (_ & Hid & _). rewrite Hid in E. exact E. }
    clear E. apply bindA_inv in Hmain as (s1 & e1 & e2 & E1 & E2 & ->). rewrite hear_app.
    (* out with the old value *)
    assert (H1 : Mid s1 (hear_all k e1) /\ loses s s1 /\ GInv (setSlot s1 o f []) /\ RInv s1 /\ cstep [] s s1).
    { destruct (hd_error (slot s o f)) as [y|] eqn:Ey; cbn [whenA to_list] in *.
      - assert (Hy : In y (slot s o f)) by (rewrite Hold; now left).
        pose proof (GInv_view_self M s o f G) as Gv.
        destruct (rem_mid s o f y (slot s o f) k s1 e1 Gv Hy Hm E1) as [Hm1 Hl1].
        apply listInverseRemove_erase in E1.
        destruct (rem_ok M W s o f y (slot s o f) Gv R Hy) as (s1' & E1' & _ & G1 & R1).
        rewrite E1 in E1'. injection E1' as <-. rewrite Hold in G1. cbn in G1. rewrite Nat.eqb_refl in G1.
        split; [assumption|]. split; [assumption|]. split; [exact G1|]. split; [exact R1|].
        exact (listInverseRemove_cstep M _ _ _ _ _ _ E1).
      - injection E1 as <- <-. split; [assumption|]. split; [now apply loses_refl|]. split; [|split; [assumption|apply cstep_refl]].
        rewrite <- Hold. now apply (GInv_view_self M). }
    destruct H1 as (Hm1 & Hl1 & G1 & R1 & Hc1).
    apply (Mid_same s2); [reflexivity|reflexivity|].
    destruct v as [x|]; cbn [whenA] in E2; [|injection E2 as <- <-; assumption].
    apply (add_mid s1 o f x [] (hear_all k e1) s2 e2 G1 Hm1 (Ht x eq_refl) Hnc); auto.
    - intro Hcf. eapply (may_keep []); [exact Hc1|intros ? ? []|auto].
    - intros Hcf Hkr. destruct (Hl1 x) as [H|H]; [assumption|]. rewrite H. auto.
  Qed.

  Lemma eUnset_inverse_mid s k o f s' es : GInv s -> RInv s -> Mid s k -> In f (features M o) -> f_many M f = false ->
    isContainer M f = false -> (isBidirectional M f || f_cont M f) = true ->
    eUnsetA M fuel s o f = Some (s', es) -> Mid s' (hear_all k es).
  Proof.
    intros G R Hm Hf Hmf Hnc Hb E.
    assert (Hset : eSetA M fuel s o f None = Some (s', es) \/ (container s' = container s /\ internalResource s' = internalResource s /\ es = [])).
    { unfold eUnsetA in E. unfold eSetA. rewrite Hnc, Hb in *. rewrite Hmf in E. cbv zeta in *.
      destruct (hd_error (slot s o f)) as [y|] eqn:Ey; cbn [some_eqb whenA] in *.
      - left. rewrite <- E. clear E.
        destruct (f_opp M f); destruct (inverseRemoveA M fuel s y o _) as [[s1 e1]|]; cbn; now rewrite ?app_nil_r.
      - right. cbn in E. injection E as <- <-. repeat split. }
    destruct Hset as [Hs|(H1 & H2 & ->)].
    - eapply (eSet_inverse_mid s k o f None); eauto; discriminate.
    - now apply (Mid_same s).
  Qed.
End Steps.
