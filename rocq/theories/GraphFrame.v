From Coq Require Import Permutation.
From Verif Require Import Base ListModel ListSpec ListProofs NotifyModel NotifyProofs CallbackProofs
  GraphModel GraphSpec GraphProofs GraphInv GraphSteps GraphFrameSpec.

Lemma within_In x l : within x l = true <-> In x l.
Proof.
  unfold within. rewrite existsb_exists. split.
  - intros (y & Hy & E). apply Nat.eqb_eq in E. now subst.
  - intro H. exists x. split; [assumption|apply Nat.eqb_refl].
Qed.
Lemma within_not x l : within x l = false <-> ~ In x l.
Proof. rewrite <- within_In. destruct (within x l); intuition congruence. Qed.

Lemma without_in A l y : In y (without A l) <-> In y l /\ ~ In y A.
Proof. unfold without. rewrite filter_In, negb_true_iff, within_not. tauto. Qed.
Lemma without_nil l : without [] l = l.
Proof. unfold without. induction l as [|y l IH]; cbn; [reflexivity|]. now f_equal. Qed.
Lemma without_one x l : without [x] l = rm x l.
Proof. unfold without, rm. apply filter_ext. intro y. cbn. now rewrite orb_false_r. Qed.
Lemma without_cons x A l : without A (rm x l) = without (x :: A) l.
Proof.
  unfold without, rm. induction l as [|y l IH]; [reflexivity|]. cbn [filter].
  change (within y (x :: A)) with ((y =? x)%nat || within y A).
  destruct (Nat.eqb_spec y x); cbn [negb orb filter]; [assumption|].
  destruct (within y A); cbn [negb]; [assumption|now f_equal].
Qed.
Lemma without_absent A l : (forall y, In y A -> ~ In y l) -> without A l = l.
Proof.
  unfold without. induction l as [|y l IH]; intro H; cbn; [reflexivity|].
  destruct (within y A) eqn:E; cbn.
  - apply within_In in E. destruct (H y E). now left.
  - f_equal. apply IH. intros z Hz Hin. apply (H z Hz). now right.
Qed.

Section Frame.
  Context (M : metamodel) (W : wf_metamodel M).
  Notation f_many := (f_many M). Notation f_cont := (f_cont M). Notation f_opp := (f_opp M).
  Notation f_id := (f_id M). Notation features := (features M).
  Notation isContainer := (isContainer M). Notation feature_at := (feature_at M).
  Notation getFeatureID := (getFeatureID M). Notation link_typed := (link_typed M).
  Notation GInv := (GInv M). Notation RInv := (RInv M). Notation code := (code M).
  Notation other_end := (other_end M). Notation exclusive := (exclusive M). Notation expected := (expected M).

  Lemma other_end_ne f k : other_end f k = true -> k <> f.
  Proof.
    unfold GraphFrameSpec.other_end. destruct (f_opp f) as [g|] eqn:E; [|now rewrite andb_false_r].
    intro H. apply andb_true_iff in H as [_ H]. apply Nat.eqb_eq in H. subst k. now apply (wf_opp M W).
  Qed.
  Lemma other_end_excl f k : other_end f k = true -> exclusive f k = false.
  Proof.
    intro H. pose proof (other_end_ne _ _ H) as N. unfold GraphFrameSpec.other_end, GraphFrameSpec.exclusive in *.
    apply andb_true_iff in H as [H _]. apply negb_true_iff in H. rewrite H. cbn.
    destruct (Nat.eqb_spec k f); [contradiction|reflexivity].
  Qed.

  (** the slot left by inverseRemove *)
  Lemma inverseRemove_exact s c k y s' : In k (features c) -> isContainer k = false ->
    NoDup (slot s c k) -> (f_many k = false -> (length (slot s c k) <= 1)%nat) -> In y (slot s c k) ->
    inverseRemove M s c y (f_id k) = Some s' -> s' = setSlot s c k (rm y (slot s c k)).
  Proof.
    intros Hk Hc Hnd Hm Hy. apply (feat M W) in Hk as (Hat & _ & H0).
    unfold inverseRemove. destruct (Z.geb_spec (f_id k) 0); [|lia].
    unfold basicInverseRemove. fold (feature_at c (f_id k)). rewrite Hat. cbn [obind].
    destruct (GraphModel.f_many M k) eqn:Em.
    - destruct (removeWithNotification_ok (slot s c k) y Hnd) as (cb & -> & _). cbn [obind]. congruence.
    - fold (isContainer k). rewrite Hc. specialize (Hm eq_refl). intro E. injection E as <-. f_equal.
      destruct (slot s c k) as [|z [|z' l]]; [destruct Hy| |cbn in Hm; lia]. destruct Hy as [->|[]].
      cbn. now rewrite Nat.eqb_refl.
  Qed.

  Lemma basicSetContainer_slot s x c id s' : RInv s -> (forall c', c = Some c' -> exists cf, eContainmentFeature M x c' id = Some cf) ->
    basicSetContainer M s x c id = Some s' -> slot s' = slot s.
  Proof.
    intros R Hc E. destruct c as [c|].
    - destruct (Hc c eq_refl) as [cf Hcf].
      destruct (basicSetContainer_some M s x c id cf R Hcf) as (s1 & E' & _ & _ & Es & _).
      rewrite E' in E. injection E as <-. exact Es.
    - rewrite basicSetContainer_none in E. injection E as <-. reflexivity.
  Qed.

  (** removeFromContainer on the slots, x being nowhere in o.f *)
  Lemma removeFromContainer_exact s st x s' : GInv st -> container st x = container s x ->
    containerFeatureID st x = containerFeatureID s x ->
    (forall c k, f_cont k = true -> In x (slot st c k) -> slot st c k = slot s c k) ->
    removeFromContainer M s x = Some s' ->
    forall a k, (In x (slot s a k) -> slot st a k = slot s a k) -> slot s' a k = if f_cont k then rm x (slot s a k) else slot s a k.
  Proof.
    intros G E1 E2 Hs E a k Hst.
    assert (Hout : forall c k0, f_cont k0 = true -> In x (slot st c k0) -> (a <> c \/ k <> k0) -> f_cont k = true -> ~ In x (slot s a k)).
    { intros c k0 Hk0 Hx D Hk Hin. rewrite <- Hst in Hin by assumption.
      destruct (place_unique M W st G x c k0 a k Hk0 Hk Hx Hin). lia. }
    destruct (container s x) as [c|] eqn:Ec.
    - destruct (removeFromContainer_ok M W s st x c G) as (f0 & Hf0 & Hx0 & Hgo); [congruence|assumption|assumption|].
      pose proof (Hs c f0 Hf0 Hx0) as Es.
      destruct (g_typed M st G _ _ _ Hx0) as [[T1 T2] Hnc].
      assert (Hinv : inverseRemove M s c x (f_id f0) = Some s').
      { rewrite <- E. destruct (g_cont M st G _ _ _ Hf0 Hx0) as [_ Hcode].
        unfold removeFromContainer. rewrite Ec, <- E2, Hcode. unfold GraphInv.code.
        destruct (f_opp f0) as [g0|] eqn:Eg.
        - specialize (T2 _ eq_refl). apply (feat M W) in T2 as (Hat & _ & H0).
          destruct (Z.geb_spec (f_id g0) 0); [|lia]. fold (feature_at x (f_id g0)). rewrite Hat.
          destruct (wf_opp M W _ _ Eg) as [Eg' _]. unfold f_id in Eg'. now rewrite Eg'.
        - apply (feat M W) in T1 as (_ & _ & H0). destruct (Z.geb_spec (-1 - f_id f0) 0); [lia|].
          unfold BASE. now replace (-1 - (-1 - f_id f0)) with (f_id f0) by lia. }
      apply inverseRemove_exact in Hinv; auto; rewrite <- ?Es; [|apply (g_nodup M st G)|apply (g_single M st G)|assumption].
      subst s'. destruct (slot_dec a k c f0) as [[-> ->]|D]; [now rewrite slot_eq, Hf0|].
      rewrite slot_ne by assumption. destruct (f_cont k) eqn:Hk; [|reflexivity].
      symmetry. apply rm_not_in. now apply (Hout c f0).
    - unfold removeFromContainer in E. rewrite Ec in E. injection E as <-.
      destruct (f_cont k) eqn:Hk; [|reflexivity]. symmetry. apply rm_not_in. intro Hin.
      rewrite <- Hst in Hin by assumption. destruct (g_cont M st G _ _ _ Hk Hin). congruence.
  Qed.

  Lemma rem_eff s o f x V s' : GInv (setSlot s o f V) -> In x V -> listInverseRemove M s o f x = Some s' ->
    forall a k, a <> o \/ k <> f ->
    slot s' a k = if other_end f k && Nat.eqb a x then rm o (slot s a k) else slot s a k.
  Proof.
    intros G Hx E a k D.
    assert (HxV : In x (slot (setSlot s o f V) o f)) by now rewrite slot_eq.
    destruct (g_typed M _ G _ _ _ HxV) as [[T1 T2] Hnc].
    unfold listInverseRemove in E. unfold GraphFrameSpec.other_end.
    destruct (GraphModel.f_cont M f) eqn:Ef; cbn [negb andb].
    - destruct (GraphModel.f_opp M f) as [g|] eqn:Eg.
      + destruct (opp_container M W f g Ef Eg) as (Hgc & Hgm & _ & _).
        specialize (T2 _ eq_refl). apply (feat M W) in T2 as (Hat & Hid & H0).
        unfold inverseRemove in E. destruct (Z.geb_spec (f_id g) 0); [|lia].
        unfold basicInverseRemove in E. fold (feature_at x (f_id g)) in E. rewrite Hat in E. cbn [obind] in E.
        rewrite Hgm, Hgc, basicSetContainer_none in E. now injection E as <-.
      + apply (feat M W) in T1 as (_ & _ & H0). unfold inverseRemove in E.
        destruct (Z.geb_spec (BASE - f_id f) 0); [unfold BASE in *; lia|].
        rewrite basicSetContainer_none in E. now injection E as <-.
    - destruct (GraphModel.f_opp M f) as [g|] eqn:Eg; [|now injection E as <-].
      destruct (noncont_pair M W f g Eg Ef Hnc) as (Hgf & Hgc & Hcg & Hne).
      assert (Hin : In o (slot (setSlot s o f V) x g)) by (eapply (g_sym M _ G); eauto).
      pose proof (g_nodup M _ G x g) as Hnd. pose proof (g_single M _ G x g) as Hsi.
      rewrite slot_ne in Hin, Hnd, Hsi by auto.
      apply inverseRemove_exact in E; auto. subst s'.
      destruct (slot_dec a k x g) as [[-> ->]|D'].
      + now rewrite slot_eq, !Nat.eqb_refl.
      + rewrite slot_ne by assumption. destruct (Nat.eqb_spec g k), (Nat.eqb_spec a x); try reflexivity. subst. lia.
  Qed.

  Lemma add_eff s o f x V s' : GInv (setSlot s o f V) -> RInv s -> ~ In x V -> link_typed o f x -> isContainer f = false ->
    listInverseAdd M s o f x = Some s' ->
    forall a k, a <> o \/ k <> f ->
    slot s' a k = if other_end f k && Nat.eqb a x then (if f_many k then slot s a k ++ [o] else [o])
                  else if exclusive f k then rm x (slot s a k) else slot s a k.
  Proof.
    intros G R Hx Ht Hnc E a k D. pose proof (proj1 Ht) as T1.
    unfold listInverseAdd in E. unfold GraphFrameSpec.other_end, GraphFrameSpec.exclusive.
    destruct (GraphModel.f_cont M f) eqn:Ef; cbn [negb andb orb].
    - (* containment *)
      assert (Hgo : forall s1, removeFromContainer M s x = Some s1 -> slot s1 a k = if f_cont k then rm x (slot s a k) else slot s a k).
      { intros s1 Er. apply (removeFromContainer_exact s (setSlot s o f V) x s1 G eq_refl eq_refl); [|assumption|].
        - intros c k0 Hk0 Hin. destruct (slot_dec c k0 o f) as [[-> ->]|D']; [rewrite slot_eq in Hin; contradiction|].
          now rewrite slot_ne.
        - intros _. now rewrite slot_ne. }
      assert (Hr : forall s1, removeFromContainer M s x = Some s1 -> RInv s1).
      { intros s1 Er. destruct (container s x) as [c|] eqn:Ec.
        - destruct (removeFromContainer_ok M W s (setSlot s o f V) x c G eq_refl eq_refl Ec) as (f0 & Hf0 & Hx0 & Hg).
          assert (D0 : c <> o \/ f0 <> f).
          { destruct (slot_dec c f0 o f) as [[-> ->]|D']; [rewrite slot_eq in Hx0; contradiction|assumption]. }
          rewrite slot_ne in Hg by assumption. destruct (Hg eq_refl) as (l' & E' & _).
          rewrite E' in Er. injection Er as <-. exact R.
        - unfold removeFromContainer in Er. rewrite Ec in Er. now injection Er as <-. }
      destruct (containment_feature M W o f x Ef Ht) as [cf Hcf].
      assert (Hlast : forall s1 id, removeFromContainer M s x = Some s1 -> id = code f ->
                basicSetContainer M s1 x (Some o) id = Some s' -> slot s' a k = if f_cont k then rm x (slot s a k) else slot s a k).
      { intros s1 id Er -> Eb. rewrite <- (Hgo s1 Er).
        apply basicSetContainer_slot in Eb; [now rewrite Eb|now apply Hr|]. intros c' Ec. injection Ec as <-. eauto. }
      assert (Hshape : slot s' a k = if f_cont k then rm x (slot s a k) else slot s a k).
      { destruct (GraphModel.f_opp M f) as [g|] eqn:Eg.
        + destruct (opp_container M W f g Ef Eg) as (Hgc & Hgm & _ & _).
          pose proof (proj2 Ht _ Eg) as T2. apply (feat M W) in T2 as (Hat & Hid & H0).
          unfold inverseAdd in E. destruct (Z.geb_spec (f_id g) 0); [|lia].
          unfold basicInverseAdd in E. fold (feature_at x (f_id g)) in E. rewrite Hat in E. cbn [obind] in E.
          rewrite Hgm, Hgc in E. fold (getFeatureID x g) in E. rewrite Hid in E.
          destruct (removeFromContainer M s x) as [s1|] eqn:Er; [|discriminate]. cbn [obind] in E.
          eapply Hlast; [reflexivity| |exact E]. unfold GraphInv.code. now rewrite Eg.
        + apply (feat M W) in T1 as (_ & _ & H0). unfold inverseAdd in E.
          destruct (Z.geb_spec (BASE - f_id f) 0); [unfold BASE in *; lia|].
          destruct (removeFromContainer M s x) as [s1|] eqn:Er; [|discriminate]. cbn [obind] in E.
          eapply Hlast; [reflexivity| |exact E]. unfold GraphInv.code, BASE. now rewrite Eg. }
      rewrite Hshape. destruct (GraphModel.f_cont M k) eqn:Hk; [reflexivity|]. cbn.
      destruct (Nat.eqb_spec k f) as [->|]; [congruence|reflexivity].
    - destruct (GraphModel.f_opp M f) as [g|] eqn:Eg; [|injection E as <-; now rewrite andb_false_r].
      destruct (noncont_pair M W f g Eg Ef Hnc) as (Hgf & Hgc & Hcg & Hne).
      pose proof (proj2 Ht _ Eg) as Tg. pose proof Tg as Tg'. apply (feat M W) in Tg' as (Hat & _ & H0).
      unfold inverseAdd in E. destruct (Z.geb_spec (f_id g) 0); [|lia].
      unfold basicInverseAdd in E. fold (feature_at x (f_id g)) in E. rewrite Hat in E. cbn [obind] in E.
      assert (Hback : forall u, u <> o -> (In x (slot s u f) <-> In u (slot s x g))).
      { intros u Hu. pose proof (g_sym M _ G u f x g Eg Ef Hgc) as S1.
        pose proof (g_sym M _ G x g u f Hgf Hgc Ef) as S2.
        rewrite !slot_ne in S1, S2 by auto. split; assumption. }
      assert (Hrest : (a <> x \/ k <> g) -> (g =? k)%nat && (a =? x)%nat = false).
      { intro. destruct (Nat.eqb_spec g k), (Nat.eqb_spec a x); try reflexivity. subst. lia. }
      destruct (GraphModel.f_many M g) eqn:Em.
      + cbn [doAdd obind] in E. injection E as <-. cbn [negb]. rewrite andb_false_r.
        destruct (slot_dec a k x g) as [[-> ->]|D'].
        * rewrite slot_eq, !Nat.eqb_refl, Em. reflexivity.
        * rewrite slot_ne by assumption. now rewrite Hrest.
      + fold (isContainer g) in E. rewrite Hcg in E.
        pose proof (g_single M _ G x g Em) as Hsi. rewrite slot_ne in Hsi by auto. cbn [negb]. rewrite andb_true_r.
        destruct (slot s x g) as [|y [|z l]] eqn:Es; [| |cbn in Hsi; lia].
        * cbn [obind] in E. injection E as <-.
          destruct (slot_dec a k x g) as [[-> ->]|D'].
          -- rewrite slot_eq, !Nat.eqb_refl, Em. reflexivity.
          -- rewrite slot_ne, Hrest by assumption. destruct (Nat.eqb_spec k f) as [->|]; [|reflexivity].
             symmetry. apply rm_not_in. rewrite Hback by lia. cbn. tauto.
        * destruct (Nat.eq_dec y o) as [->|Hyo].
          { assert (Hin' : In o (slot (setSlot s o f V) x g)) by (rewrite slot_ne by auto; rewrite Es; now left).
            eapply (g_sym M _ G) in Hin'; eauto. rewrite slot_eq in Hin'. contradiction. }
          assert (Hxy : In x (slot s y f)) by (apply Hback; [assumption|now left]).
          assert (Hxy' : In x (slot (setSlot s o f V) y f)) by (rewrite slot_ne by auto; assumption).
          destruct (g_typed M _ G _ _ _ Hxy') as [[Ty _] _].
          pose proof (g_nodup M _ G y f) as Hndy. pose proof (g_single M _ G y f) as Hsy.
          rewrite slot_ne in Hndy, Hsy by auto.
          rewrite Hgc, Hgf in E. fold (getFeatureID y f) in E.
          pose proof Ty as Ty'. apply (feat M W) in Ty' as (_ & Hidy & _). rewrite Hidy in E.
          destruct (inverseRemove M s y x (f_id f)) as [s1|] eqn:E1; [|discriminate].
          apply inverseRemove_exact in E1; auto. cbn [obind] in E. injection E as <-. subst s1.
          destruct (slot_dec a k x g) as [[-> ->]|D'].
          -- rewrite slot_eq, !Nat.eqb_refl, Em. reflexivity.
          -- rewrite (slot_ne _ x g), Hrest by assumption.
             destruct (slot_dec a k y f) as [[-> ->]|D2].
             ++ now rewrite slot_eq, Nat.eqb_refl.
             ++ rewrite slot_ne by assumption. destruct (Nat.eqb_spec k f) as [->|]; [|reflexivity].
                symmetry. apply rm_not_in. rewrite Hback by lia. cbn. intuition lia.
  Qed.

  Lemma fold_rem_eff o f R : forall s V s', GInv (setSlot s o f V) -> RInv s -> NoDup R -> incl R V ->
    foldM (fun s x => listInverseRemove M s o f x) R s = Some s' ->
    forall a k, a <> o \/ k <> f ->
    slot s' a k = if other_end f k && within a R then rm o (slot s a k) else slot s a k.
  Proof.
    induction R as [|x R IH]; intros s V s' G Rs Hnd Hi E a k D; cbn [foldM] in E.
    - injection E as <-. cbn. now rewrite andb_false_r.
    - destruct (rem_ok M W s o f x V G Rs) as (s1 & E1 & Hs1 & G1 & R1); [apply Hi; now left|].
      rewrite E1 in E. cbn [obind] in E. inversion_clear Hnd as [|? ? Hx Hnd'].
      assert (Hx' : In x V) by (apply Hi; now left).
      pose proof (rem_eff s o f x V s1 G Hx' E1 a k D) as E2.
      rewrite (IH s1 (rm x V) s' G1 R1 Hnd') with (a := a) (k := k); [|intros y Hy; apply rm_in; split; [apply Hi; now right|intros ->; contradiction]|assumption|assumption].
      rewrite E2. change (within a (x :: R)) with ((a =? x)%nat || within a R).
      destruct (other_end f k); cbn [andb]; [|reflexivity].
      destruct (Nat.eqb_spec a x) as [->|]; cbn [orb]; [|reflexivity].
      apply within_not in Hx. now rewrite Hx.
  Qed.

  Lemma fold_add_eff o f A : f_many f = true -> isContainer f = false ->
    forall s V s', GInv (setSlot s o f V) -> RInv s -> NoDup A ->
    (forall x, In x A -> ~ In x V) -> (forall x, In x A -> link_typed o f x) ->
    foldM (fun s x => listInverseAdd M s o f x) A s = Some s' ->
    forall a k, a <> o \/ k <> f ->
    slot s' a k = if other_end f k && within a A then (if f_many k then slot s a k ++ [o] else [o])
                  else if exclusive f k then without A (slot s a k) else slot s a k.
  Proof.
    intros Hm Hc. induction A as [|x A IH]; intros s V s' G Rs Hnd Hd Ht E a k D; cbn [foldM] in E.
    - injection E as <-. rewrite without_nil. cbn. rewrite andb_false_r. now destruct (exclusive f k).
    - assert (Hx0 : ~ In x V) by (apply Hd; now left). assert (Ht0 : link_typed o f x) by (apply Ht; now left).
      destruct (add_ok M W s o f x V G Rs) as (s1 & E1 & Hs1 & G1 & R1); auto. { congruence. }
      rewrite E1 in E. cbn [obind] in E. inversion_clear Hnd as [|? ? Hx Hnd'].
      pose proof (add_eff s o f x V s1 G Rs Hx0 Ht0 Hc E1 a k D) as E2.
      assert (E3 : slot s' a k = if other_end f k && within a A then (if f_many k then slot s1 a k ++ [o] else [o])
                  else if exclusive f k then without A (slot s1 a k) else slot s1 a k).
      { apply (IH s1 (V ++ [x]) s' G1 R1 Hnd'); auto.
        - intros y Hy. rewrite in_app_iff. intros [Hv|[->|[]]]; [|contradiction]. eapply Hd; [right|]; eassumption.
        - intros y Hy. apply Ht. now right. }
      rewrite E3, E2. change (within a (x :: A)) with ((a =? x)%nat || within a A).
      destruct (other_end f k) eqn:Eo; cbn [andb].
      + rewrite (other_end_excl f k Eo). destruct (Nat.eqb_spec a x) as [->|]; cbn [orb]; [|reflexivity].
        apply within_not in Hx. now rewrite Hx.
      + destruct (exclusive f k); [apply without_cons|reflexivity].
  Qed.

  (** the two folds together *)
  Lemma both_eff (s s1 s' : state) o f R A a k : (forall y, In y A -> ~ In y R) ->
    slot s1 a k = (if other_end f k && within a R then rm o (slot s a k) else slot s a k) ->
    slot s' a k = (if other_end f k && within a A then (if f_many k then slot s1 a k ++ [o] else [o])
                  else if exclusive f k then without A (slot s1 a k) else slot s1 a k) ->
    slot s' a k = expected o f R A a k (slot s a k).
  Proof.
    intros Hd E1 E2. unfold GraphFrameSpec.expected. rewrite E2, E1. rewrite without_one.
    destruct (other_end f k) eqn:Eo; cbn [andb]; [|reflexivity].
    rewrite (other_end_excl f k Eo). destruct (within a A) eqn:EA; [|reflexivity].
    apply within_In in EA. pose proof (Hd a EA) as N. apply within_not in N. now rewrite N.
  Qed.

  Lemma expected_same o f R A R' A' a k l : (forall y, In y R <-> In y R') -> (forall y, In y A <-> In y A') ->
    expected o f R A a k l = expected o f R' A' a k l.
  Proof.
    intros HR HA. unfold GraphFrameSpec.expected.
    assert (E : forall y L L', (forall z, In z L <-> In z L') -> within y L = within y L').
    { intros y L L' H. destruct (within y L') eqn:E; [apply within_In; apply H; now apply within_In|].
      apply within_not. rewrite H. now apply within_not. }
    rewrite (E a A A' HA), (E a R R' HR). unfold without.
    destruct (other_end f k); [reflexivity|]. destruct (exclusive f k); [|reflexivity].
    apply filter_ext. intro y. now rewrite (E y A A' HA).
  Qed.

  (** ** the calls *)
  Lemma listOp_eff s o f p s' : GInv s -> RInv s -> legal M s (OList o f p) -> listOp M s o f p = Some s' ->
    exists R A, (forall y, In y R <-> In y (slot s o f) /\ ~ In y (slot s' o f))
      /\ (forall y, In y A <-> In y (slot s' o f) /\ ~ In y (slot s o f))
      /\ forall a k, a <> o \/ k <> f -> slot s' a k = expected o f R A a k (slot s a k).
  Proof.
    intros G R L E. pose proof (listOp_ok M W s o f p G R L) as Hok.
    destruct L as (Hm & Hf & Hop & Hargs). unfold listOp in E.
    destruct (list_effect (slot s o f) p) as [[[st Rm] A]|] eqn:Ee; [|discriminate]. cbn [obind] in E.
    destruct Hok as (s'' & Es & _ & _ & Hfin). unfold listOp in Es. rewrite Ee in Es. cbn [obind] in Es.
    rewrite E in Es. injection Es as <-.
    pose proof (g_nodup M s G o f) as Hnd.
    apply list_effect_good in Ee as [Ee _]; [|assumption|assumption].
    destruct (effect_elements _ _ _ _ _ Hnd Ee) as (N1 & N2 & Hel).
    destruct Ee as (_ & Hi & HA & Hd & Harg).
    pose proof (many_not_container M W f Hm) as Hnc.
    destruct (fold_rem M W o f Rm (setSlot s o f (final (slot s o f) st)) (slot s o f)) as (s1 & V1 & E1 & Hs1 & G1 & R1 & Hl1);
      [now apply GInv_view|exact R|assumption|assumption|].
    rewrite E1 in E. cbn [obind] in E.
    exists Rm, A. rewrite Hfin. split; [|split].
    - intro y. rewrite Hel. split; [|destruct (in_dec Nat.eq_dec y Rm); tauto]. intro Hy. split; [now apply Hi|].
      intros [[_ N]|HyA]; [contradiction|]. apply (Hd y HyA). now apply Hi.
    - intro y. rewrite Hel. split; [|tauto]. intro Hy. split; [now right|now apply Hd].
    - intros a k D. apply (both_eff s s1 s').
      + intros y Hy Hr. apply (Hd y Hy). now apply Hi.
      + rewrite (fold_rem_eff o f Rm (setSlot s o f (final (slot s o f) st)) (slot s o f) s1) by
          (try assumption; now apply GInv_view). now rewrite slot_ne.
      + apply (fold_add_eff o f A Hm Hnc s1 V1); auto.
        * intros x Hx Hv. apply Hl1 in Hv as [Hv _]. exact (Hd x Hx Hv).
        * intros x Hx. destruct (Harg x Hx) as [Ha|Ha]; [now apply Hargs|]. now apply (g_typed M s G).
  Qed.

  Lemma expected_refl o f a k l : expected o f [] [] a k l = l.
  Proof.
    unfold GraphFrameSpec.expected. rewrite without_nil. cbn.
    destruct (other_end f k); [reflexivity|]. now destruct (exclusive f k).
  Qed.

  Lemma eSet_eff s o f v s' : GInv s -> RInv s -> In f (features o) -> f_many f = false -> isContainer f = false ->
    (isBidirectional M f || f_cont f) = true -> (forall x, v = Some x -> link_typed o f x) ->
    hd_error (slot s o f) <> v -> eSet M s o f v = Some s' ->
    forall a k, a <> o \/ k <> f -> slot s' a k = expected o f (slot s o f) (to_list v) a k (slot s a k).
  Proof.
    intros G R Hf Hm Hnc Hb Ht Hne E a k D. unfold eSet in E. rewrite Hnc, Hb in E. cbv zeta in E.
    pose proof (g_single M s G o f Hm) as Hsi.
    assert (Hold : slot s o f = to_list (hd_error (slot s o f))).
    { destruct (slot s o f) as [|y [|z l]]; cbn in *; [reflexivity|reflexivity|lia]. }
    destruct (some_eqb (hd_error (slot s o f)) v) eqn:Eq.
    { destruct Hne. destruct (hd_error (slot s o f)), v; cbn in Eq; try discriminate; [|reflexivity].
      apply Nat.eqb_eq in Eq. congruence. }
    assert (Hrem : exists s1, when (hd_error (slot s o f)) s (fun y => listInverseRemove M s o f y) = Some s1
        /\ GInv (setSlot s1 o f []) /\ RInv s1
        /\ slot s1 a k = if other_end f k && within a (slot s o f) then rm o (slot s a k) else slot s a k).
    { destruct (hd_error (slot s o f)) as [y|] eqn:Ey; cbn [when to_list] in *.
      - assert (Hy : In y (slot s o f)) by (rewrite Hold; now left).
        destruct (rem_ok M W s o f y (slot s o f)) as (s1 & E1 & Hs1 & G1 & R1);
          [now apply GInv_view_self|assumption|assumption|].
        exists s1. split; [assumption|]. split; [|split; [assumption|]].
        + rewrite Hold in G1. cbn in G1. rewrite Nat.eqb_refl in G1. exact G1.
        + rewrite (rem_eff s o f y (slot s o f) s1) by (try assumption; now apply GInv_view_self).
          rewrite Hold. cbn. now rewrite orb_false_r.
      - exists s. split; [reflexivity|]. split; [|split; [assumption|]].
        + rewrite <- Hold. now apply GInv_view_self.
        + rewrite Hold. cbn. now rewrite andb_false_r. }
    destruct Hrem as (s1 & Er & G1 & R1 & E1).
    assert (Hadd : forall s2, when v s1 (fun x => listInverseAdd M s1 o f x) = Some s2 ->
      slot s2 a k = expected o f (slot s o f) (to_list v) a k (slot s a k)).
    { intros s2 Ea. apply (both_eff s s1 s2 o f); [|assumption|].
      - intros y Hy Hin. destruct v as [x|]; cbn in Hy; [|tauto]. destruct Hy as [<-|[]].
        rewrite Hold in Hin. destruct (hd_error (slot s o f)); cbn in Hin; [|tauto]. destruct Hin as [->|[]]. congruence.
      - destruct v as [x|]; cbn [when to_list] in *.
        + rewrite (add_eff s1 o f x [] s2) by (auto; tauto). cbn [within existsb]. rewrite orb_false_r.
          now rewrite without_one.
        + injection Ea as <-. rewrite without_nil. cbn. rewrite andb_false_r. now destruct (exclusive f k). }
    unfold listInverseAdd, listInverseRemove in *.
    destruct (GraphModel.f_opp M f) as [g|] eqn:Eg.
    - assert (E3 : when (hd_error (slot s o f)) s (fun y => inverseRemove M s y o (getFeatureID y g)) = Some s1).
      { rewrite <- Er. destruct (hd_error (slot s o f)) as [y|]; [|reflexivity]. cbn [when].
        assert (Hy : In y (slot s o f)) by (rewrite Hold; now left).
        destruct (g_typed M s G _ _ _ Hy) as [[_ T2] _]. specialize (T2 _ Eg).
        apply (feat M W) in T2 as (_ & -> & _). reflexivity. }
      rewrite E3 in E. cbn [obind] in E.
      assert (E2 : when v s1 (fun x => inverseAdd M s1 x o (getFeatureID x g)) = when v s1 (fun x => inverseAdd M s1 x o (f_id g))).
      { destruct v as [x|]; [|reflexivity]. cbn [when].
        destruct (Ht x eq_refl) as [_ T2]. specialize (T2 _ Eg).
        apply (feat M W) in T2 as (_ & -> & _). reflexivity. }
      rewrite E2 in E. destruct (when v s1 _) as [s2|] eqn:Ew; [|discriminate]. cbn [obind] in E. injection E as <-.
      rewrite slot_ne by assumption. apply Hadd. reflexivity.
    - unfold isBidirectional in Hb. rewrite Eg in Hb. cbn in Hb. rewrite Hb in *.
      pose proof Hf as Hf'. apply (feat M W) in Hf' as (_ & Hid & _). rewrite Hid, Er in E. cbn [obind] in E.
      destruct (when v s1 _) as [s2|] eqn:Ew; [|discriminate]. cbn [obind] in E. injection E as <-.
      rewrite slot_ne by assumption. apply Hadd. reflexivity.
  Qed.

  Lemma gstep_eff s p o f s' : GInv s -> RInv s -> legal M s p -> call_on p o f -> isContainer f = false ->
    gstep M s p = Some s' ->
    exists R A, (forall y, In y R <-> In y (slot s o f) /\ ~ In y (slot s' o f))
      /\ (forall y, In y A <-> In y (slot s' o f) /\ ~ In y (slot s o f))
      /\ forall a k, a <> o \/ k <> f -> slot s' a k = expected o f R A a k (slot s a k).
  Proof.
    intros G R L Hon Hc E.
    assert (Hsame : forall t, (forall a k, a <> o \/ k <> f -> slot t a k = slot s a k) ->
              (isBidirectional M f || f_cont f) = false ->
              exists R A, (forall y, In y R <-> In y (slot s o f) /\ ~ In y (slot t o f))
      /\ (forall y, In y A <-> In y (slot t o f) /\ ~ In y (slot s o f))
      /\ forall a k, a <> o \/ k <> f -> slot t a k = expected o f R A a k (slot s a k)).
    { intros t Hs Hb. exists (without (slot t o f) (slot s o f)), (without (slot s o f) (slot t o f)).
      split; [intro; apply without_in|]. split; [intro; apply without_in|].
      intros a k D. rewrite Hs by assumption. unfold GraphFrameSpec.expected, GraphFrameSpec.other_end, GraphFrameSpec.exclusive.
      apply orb_false_iff in Hb as [H1 H2]. unfold isBidirectional in H1. rewrite H2.
      destruct (GraphModel.f_opp M f); [discriminate|]. cbn. now rewrite andb_false_r. }
    destruct p as [o' f' v|o' f'|o' f' p|r p|r]; cbn [call_on] in Hon; try contradiction; destruct Hon as [-> ->]; cbn [gstep] in E.
    - destruct L as (Hm & Hf & Ht). rewrite (accessed_own M W) in E by assumption. cbn [obind] in E.
      destruct (isBidirectional M f || f_cont f) eqn:Hb.
      + destruct (eSet_inverse M W s o f v G R Hf Hm Hc Hb Ht) as (s'' & E' & _ & _ & Hs').
        rewrite E in E'. injection E' as <-.
        pose proof (g_single M s G o f Hm) as Hsi.
        assert (Hold : slot s o f = to_list (hd_error (slot s o f))).
        { destruct (slot s o f) as [|y [|z l]]; cbn in *; [reflexivity|reflexivity|lia]. }
        destruct (some_eqb (hd_error (slot s o f)) v) eqn:Eq.
        * assert (s' = s) as ->.
          { unfold eSet in E. rewrite Hc, Hb in E. cbv zeta in E. rewrite Eq in E. congruence. }
          exists [], []. split; [cbn; tauto|]. split; [cbn; tauto|]. intros a k _. now rewrite expected_refl.
        * assert (Hne : hd_error (slot s o f) <> v).
          { intro H. rewrite <- H in Eq. destruct (hd_error (slot s o f)); cbn in Eq; [|discriminate].
            now rewrite Nat.eqb_refl in Eq. }
          exists (slot s o f), (to_list v). rewrite Hs'.
          assert (Hdis : forall y, In y (slot s o f) -> ~ In y (to_list v)).
          { intros y Hy Hv. rewrite Hold in Hy. destruct (hd_error (slot s o f)), v; cbn in Hy, Hv; try tauto.
            destruct Hy as [->|[]], Hv as [->|[]]. congruence. }
          split; [intro y; specialize (Hdis y); tauto|]. split; [intro y; specialize (Hdis y); tauto|].
          apply (eSet_eff s o f v s'); assumption.
      + apply Hsame; [|first [assumption|reflexivity]]. intros a k D. unfold eSet in E. rewrite Hc, Hb in E. injection E as <-. now rewrite slot_ne.
    - destruct L as (Hf & Hmm). rewrite (accessed_own M W) in E by assumption. cbn [obind] in E.
      destruct (isBidirectional M f || f_cont f) eqn:Hb.
      + assert (Hm : f_many f = false).
        { destruct (f_many f); [|reflexivity]. destruct (Hmm eq_refl) as [H1 H2]. unfold isBidirectional in Hb.
          rewrite H1, H2 in Hb. discriminate. }
        destruct (eUnset_inverse M W s o f G R Hf Hm Hc Hb) as (s'' & E' & _ & _ & Hs').
        rewrite E in E'. injection E' as <-.
        exists (slot s o f), []. rewrite Hs'. split; [cbn; tauto|]. split; [cbn; tauto|].
        intros a k D. destruct (hd_error (slot s o f)) as [y|] eqn:Ey.
        * apply (eSet_eff s o f None s'); auto; try discriminate; [congruence|].
          unfold eSet. unfold eUnset in E. rewrite Hc, Hb, ?Hm in *. cbv zeta in *. rewrite Ey in *. cbn [some_eqb when obind to_list] in *.
          rewrite <- E. destruct (GraphModel.f_opp M f); destruct (inverseRemove M s y o _); reflexivity.
        * assert (slot s o f = []) as El by (destruct (slot s o f); [reflexivity|discriminate]).
          rewrite El, expected_refl. unfold eUnset in E. rewrite Hc, Hb, Hm, Ey in E. cbn [when obind] in E.
          injection E as <-. now rewrite slot_ne.
      + apply Hsame; [|first [assumption|reflexivity]]. intros a k D. unfold eUnset in E. rewrite Hc, Hb in E. injection E as <-. now rewrite slot_ne.
    - pose proof L as (Hm & Hf & _). rewrite (accessed_own M W) in E by assumption. cbn [obind] in E.
      apply (listOp_eff s o f p s'); assumption.
  Qed.

  (** ** container references *)
  Lemma detach_eff s o s1 : GInv s -> when (container s o) s (fun _ => removeFromContainer M s o) = Some s1 ->
    forall a k, slot s1 a k = if f_cont k then without [o] (slot s a k) else slot s a k.
  Proof.
    intros G E a k. rewrite without_one. destruct (container s o) as [c|] eqn:Ec; cbn [when] in E.
    - apply (removeFromContainer_exact s s o s1 G eq_refl eq_refl); auto.
    - injection E as <-. destruct (f_cont k) eqn:Hk; [|reflexivity]. symmetry. apply rm_not_in.
      intro Hin. destruct (g_cont M s G _ _ _ Hk Hin). congruence.
  Qed.

  Lemma eUnset_container_eff s o f s' : GInv s -> isContainer f = true -> eUnset M s o f = Some s' ->
    forall a k, slot s' a k = expected_parent M o f None a k (slot s a k).
  Proof.
    intros G Hc E a k. unfold eUnset in E. rewrite Hc in E. unfold expected_parent.
    destruct (container s o) as [c|] eqn:Ec.
    - destruct (removeFromContainer M s o) as [s1|] eqn:Er; [|discriminate]. cbn [obind] in E.
      rewrite basicSetContainer_none in E. injection E as <-. cbn [setContainer slot].
      apply (detach_eff s o s1 G). rewrite Ec. exact Er.
    - injection E as <-. apply (detach_eff s o s G). now rewrite Ec.
  Qed.

  Lemma eSet_container_eff s o f v s' : GInv s -> RInv s -> In f (features o) -> isContainer f = true ->
    (forall c, v = Some c -> link_typed o f c) -> eSet M s o f v = Some s' ->
    (v <> None /\ container s o = v /\ containerFeatureID s o = f_id f /\ s' = s)
    \/ ((v = None \/ container s o <> v \/ containerFeatureID s o <> f_id f) /\
        forall a k, slot s' a k = expected_parent M o f v a k (slot s a k)).
  Proof.
    intros G R Hf Hc Ht E. unfold eSet in E. rewrite Hc in E. cbv zeta in E.
    destruct (container_pair M W f Hc) as (r & Eg & Eg' & Hr & Hmf & Hnc' & Hcf).
    pose proof Hf as Hfo. apply (feat M W) in Hfo as (Hat & Hid & H0). rewrite Hid in E.
    destruct (detach M W s o G R) as (s1 & Ed & R1 & Ec1 & Ei1 & Er1 & G1 & Hs1 & Hout1).
    pose proof (detach_eff s o s1 G Ed) as Hd.
    destruct v as [c|].
    - match type of E with context [if ?b then _ else _] => destruct b eqn:Eg0 end.
      2: { apply orb_false_iff in Eg0 as [E1 E2]. apply negb_false_iff in E1, E2. left.
           split; [discriminate|]. destruct (container s o); cbn in E1; [|discriminate]. apply Nat.eqb_eq in E1.
           split; [congruence|]. split; [lia|congruence]. }
      assert (Hch : container s o <> Some c \/ containerFeatureID s o <> f_id f).
      { apply orb_true_iff in Eg0 as [E1|E1]; apply negb_true_iff in E1.
        - left. intro H. rewrite H in E1. cbn in E1. now rewrite Nat.eqb_refl in E1.
        - right. lia. }
      right. split; [tauto|]. intros a k. unfold expected_parent. rewrite Eg.
      rewrite Ed in E. cbn [obind when] in E. rewrite Eg in E. cbn [obind] in E.
      destruct (Ht c eq_refl) as [_ T2]. specialize (T2 _ Eg).
      pose proof T2 as T2'. apply (feat M W) in T2' as (Hatc & Hidc & H0c). rewrite Hidc in E.
      assert (Hno : ~ In o (slot s c r)).
      { intro Hin. destruct (g_cont M s G c r o Hr Hin) as [C1 C2]. unfold GraphInv.code in C2.
        rewrite Eg' in C2. intuition congruence. }
      pose proof (Hs1 c r Hno) as Es1.
      assert (Htl : link_typed c r o).
      { split; [assumption|]. intros g Hg. rewrite Eg' in Hg. injection Hg as <-. assumption. }
      destruct (containment_feature M W c r o Hr Htl) as [cf Hcf'].
      unfold GraphInv.code in Hcf'. rewrite Eg' in Hcf'.
      unfold inverseAdd in E. destruct (Z.geb_spec (f_id r) 0); [|lia].
      unfold basicInverseAdd in E. fold (feature_at c (f_id r)) in E. rewrite Hatc in E. cbn [obind] in E.
      fold (isContainer r) in E. rewrite Hnc' in E.
      assert (Hend : forall s2 l, RInv s2 -> slot s2 = slot s1 ->
        l = (if f_many r then slot s c r ++ [o] else [o]) ->
        basicSetContainer M (setSlot s2 c r l) o (Some c) (f_id f) = Some s' ->
        slot s' a k = (if (a =? c)%nat && (k =? r)%nat then if f_many k then slot s a k ++ [o] else [o]
                       else if f_cont k then without [o] (slot s a k) else slot s a k)).
      { intros s2 l R2 Hs2 -> Eb. apply basicSetContainer_slot in Eb;
          [|exact R2|intros c0 Hc0; injection Hc0 as <-; eauto].
        rewrite Eb. destruct (slot_dec a k c r) as [[-> ->]|D].
        - now rewrite slot_eq, !Nat.eqb_refl.
        - rewrite slot_ne by assumption. rewrite Hs2, Hd.
          destruct (Nat.eqb_spec a c), (Nat.eqb_spec k r); cbn [andb]; try reflexivity. lia. }
      destruct (GraphModel.f_many M r) eqn:Em.
      + cbn [doAdd obind] in E. apply (Hend s1 (slot s1 c r ++ [o])); auto. now rewrite Es1.
      + rewrite Es1 in E. pose proof (g_single M s G c r Em) as Hsi.
        destruct (slot s c r) as [|y [|z l]] eqn:Esl; [| |cbn in Hsi; lia].
        * cbn [obind] in E. apply (Hend s1 [o]); auto.
        * rewrite Hr in E. fold (getFeatureID c r) in E. rewrite Hidc in E.
          unfold inverseRemove in E. destruct (Z.geb_spec (BASE - f_id r) 0); [unfold BASE in *; lia|].
          rewrite basicSetContainer_none in E. cbn [obind] in E.
          apply (Hend (setContainer s1 y None (BASE - f_id r)) [o]); auto.
          apply (setContainer_RInv M s1); [assumption|]. discriminate.
    - right. split; [now left|]. intros a k. unfold expected_parent.
      match type of E with context [if ?b then _ else _] => destruct b eqn:Eg0 end.
      + rewrite Ed in E. cbn [obind when] in E. rewrite basicSetContainer_none in E. injection E as <-.
        apply Hd.
      + injection E as <-. rewrite orb_false_r in Eg0. apply (detach_eff s o s G).
        destruct (container s o); [discriminate|reflexivity].
  Qed.

  (** ** read through EGet *)
  Lemma frame s p o f s' : reachable M s -> legal M s p -> call_on p o f -> isContainer f = false ->
    gstep M s p = Some s' ->
    exists R A, (forall y, In y R <-> holds M s o f y /\ ~ holds M s' o f y)
      /\ (forall y, In y A <-> holds M s' o f y /\ ~ holds M s o f y)
      /\ forall a k, In k (features a) -> isContainer k = false -> a <> o \/ k <> f ->
         exists l, eGet M s a k = Some l /\ eGet M s' a k = Some (expected o f R A a k l).
  Proof.
    intros Hr L Hon Hc E. destruct (reachable_ok M W s Hr) as [G R].
    destruct (reachable_ok M W s' (reach_step M s p s' Hr L E)) as [G' R'].
    destruct (gstep_eff s p o f s' G R L Hon Hc E) as (Rm & A & HR & HA & Hs).
    exists Rm, A. split; [|split].
    - intro y. rewrite !(holds_slot M W) by assumption. apply HR.
    - intro y. rewrite !(holds_slot M W) by assumption. apply HA.
    - intros a k Hk Hck D. exists (slot s a k). rewrite !(eGet_own M W), Hck by assumption.
      split; [reflexivity|]. f_equal. now apply Hs.
  Qed.

  Lemma frame_parent s o f v p s' : reachable M s -> p = OSet o f v \/ (p = OUnset o f /\ v = None) -> legal M s p -> isContainer f = true ->
    gstep M s p = Some s' ->
    (exists c, v = Some c /\ eGet M s o f = Some [c] /\ s' = s)
    \/ (forall a k, In k (features a) -> isContainer k = false ->
         exists l, eGet M s a k = Some l /\ eGet M s' a k = Some (expected_parent M o f v a k l)).
  Proof.
    intros Hr Hp L Hc E. destruct (reachable_ok M W s Hr) as [G R].
    assert (Hget : (forall a k, slot s' a k = expected_parent M o f v a k (slot s a k)) ->
      forall a k, In k (features a) -> isContainer k = false ->
         exists l, eGet M s a k = Some l /\ eGet M s' a k = Some (expected_parent M o f v a k l)).
    { intros Hs a k Hk Hck. exists (slot s a k). rewrite !(eGet_own M W), Hck by assumption.
      split; [reflexivity|]. f_equal. apply Hs. }
    destruct Hp as [->|[-> ->]].
    - destruct L as (Hm & Hf & Ht). cbn [gstep] in E. rewrite (accessed_own M W) in E by assumption. cbn [obind] in E.
      destruct (eSet_container_eff s o f v s' G R Hf Hc Ht E) as [(Hv & Hcont & Hid & ->)|[_ Hs]]; [left|right; auto].
      destruct v as [c|]; [|congruence]. exists c. split; [reflexivity|]. split; [|reflexivity].
      rewrite (eGet_own M W), Hc, Hid, Z.eqb_refl, Hcont by assumption. reflexivity.
    - right. destruct L as (Hf & _). cbn [gstep] in E. rewrite (accessed_own M W) in E by assumption. cbn [obind] in E.
      apply Hget. now apply eUnset_container_eff.
  Qed.

  (** the container of an object that no containment reference lost or got *)
  Lemma contained_frame s s' b : reachable M s -> reachable M s' ->
    (forall c k, f_cont k = true -> (holds M s c k b <-> holds M s' c k b)) ->
    container s' b = container s b /\ eContainingFeature M s' b = eContainingFeature M s b.
  Proof.
    intros H H' Hh. destruct (agrees_of_inv M W s (proj1 (reachable_ok M W s H))) as (A1 & A2 & _).
    destruct (agrees_of_inv M W s' (proj1 (reachable_ok M W s' H'))) as (A1' & A2' & _).
    destruct (container s b) as [c|] eqn:Ec.
    - destruct (A2 b c Ec) as (k & Hk & C). pose proof C as [_ E]. apply A1 in C; [|assumption]. apply Hh in C; [|assumption].
      apply A1' in C as [E1 E2]; [|assumption]. split; congruence.
    - destruct (container s' b) as [c|] eqn:Ec'.
      + destruct (A2' b c Ec') as (k & Hk & C). apply A1' in C; [|assumption]. apply Hh in C; [|assumption].
        apply A1 in C as [E1 _]; [|assumption]. congruence.
      + split; [reflexivity|]. unfold eContainingFeature. now rewrite Ec, Ec'.
  Qed.

  Lemma frame_container s p o f s' b : reachable M s -> legal M s p -> call_on p o f -> isContainer f = false ->
    gstep M s p = Some s' -> (f_cont f = true -> (holds M s o f b <-> holds M s' o f b)) ->
    container s' b = container s b /\ eContainingFeature M s' b = eContainingFeature M s b.
  Proof.
    intros Hr L Hon Hc E Hb. pose proof (reach_step M s p s' Hr L E) as Hr'.
    destruct (frame s p o f s' Hr L Hon Hc E) as (R & A & HR & HA & Hs).
    apply contained_frame; [assumption|assumption|]. intros c k Hk.
    destruct (slot_dec c k o f) as [[-> ->]|D]; [now apply Hb|].
    assert (Hck : isContainer k = false) by now apply (cont_not_container M W).
    assert (Hoe : other_end f k = false).
    { unfold GraphFrameSpec.other_end. destruct (f_opp f) as [g|] eqn:Eo; [|now rewrite andb_false_r].
      destruct (Nat.eqb_spec g k) as [->|]; [|now rewrite andb_false_r].
      unfold GraphModel.isContainer in Hc. rewrite Eo in Hc. congruence. }
    assert (HA' : exclusive f k = true -> ~ In b A).
    { intros Hx Hin. apply HA in Hin as [H1 H2]. destruct (f_cont f) eqn:Hcf; [apply H2, Hb; [reflexivity|assumption]|].
      unfold GraphFrameSpec.exclusive in Hx. rewrite Hcf in Hx. cbn in Hx. apply andb_true_iff in Hx as [Hx _].
      apply Nat.eqb_eq in Hx. congruence. }
    assert (Hl : forall l, In b (expected o f R A c k l) <-> In b l).
    { intro l. unfold GraphFrameSpec.expected. rewrite Hoe. destruct (exclusive f k) eqn:Ex; [|reflexivity].
      rewrite without_in. specialize (HA' eq_refl). tauto. }
    split; intros (l & El & Hin); pose proof (eGet_inv M _ _ _ _ El) as Hk';
      destruct (Hs c k Hk' Hck D) as (l0 & E0 & E1); [exists (expected o f R A c k l0)|exists l0];
      (split; [assumption|]).
    - rewrite E0 in El. injection El as <-. now apply Hl.
    - rewrite E1 in El. injection El as <-. exact (proj1 (Hl _) Hin).
  Qed.

  Lemma frame_parent_container s o f v p s' b : reachable M s -> p = OSet o f v \/ (p = OUnset o f /\ v = None) ->
    legal M s p -> isContainer f = true -> gstep M s p = Some s' -> b <> o ->
    (forall c r, v = Some c -> f_opp f = Some r -> f_many r = false -> ~ holds M s c r b) ->
    container s' b = container s b /\ eContainingFeature M s' b = eContainingFeature M s b.
  Proof.
    intros Hr Hp L Hc E Hb Hd. pose proof (reach_step M s p s' Hr L E) as Hr'.
    destruct (frame_parent s o f v p s' Hr Hp L Hc E) as [(c & _ & _ & ->)|Hs]; [auto|].
    apply contained_frame; [assumption|assumption|]. intros c k Hk.
    assert (Hck : isContainer k = false) by now apply (cont_not_container M W).
    assert (Hl : forall l, eGet M s c k = Some l -> (In b (expected_parent M o f v c k l) <-> In b l)).
    { intros l El. unfold expected_parent. rewrite Hk.
      assert (Hw : In b (without [o] l) <-> In b l) by (rewrite without_in; cbn; intuition congruence).
      destruct v as [c'|]; [|exact Hw]. destruct (f_opp f) as [r|] eqn:Eo; [|exact Hw].
      destruct (Nat.eqb_spec c c') as [->|]; [|exact Hw]. destruct (Nat.eqb_spec k r) as [->|]; [|exact Hw].
      cbn [andb]. destruct (f_many r) eqn:Em.
      - rewrite in_app_iff. cbn. intuition congruence.
      - split; [intros [->|[]]; congruence|]. intro Hin. destruct (Hd c' r eq_refl eq_refl Em). exists l. auto. }
    split; intros (l & El & Hin); pose proof (eGet_inv M _ _ _ _ El) as Hk';
      destruct (Hs c k Hk' Hck) as (l0 & E0 & E1); [exists (expected_parent M o f v c k l0)|exists l0];
      (split; [assumption|]).
    - rewrite E0 in El. injection El as <-. now apply Hl.
    - rewrite E1 in El. injection El as <-. exact (proj1 (Hl _ E0) Hin).
  Qed.
End Frame.
