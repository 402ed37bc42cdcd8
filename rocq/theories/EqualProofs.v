(** Proofs about EqualModel. *)
From Verif Require Import Base EqualModel EqualSpec.

Lemma Forall2_length {A B} (R : A -> B -> Prop) l1 l2 : Forall2 R l1 l2 -> length l1 = length l2.
Proof. induction 1; cbn; congruence. Qed.
Lemma Forall2_impl {A B} (R Q : A -> B -> Prop) l1 l2 : (forall a b, R a b -> Q a b) -> Forall2 R l1 l2 -> Forall2 Q l1 l2.
Proof. intros H. induction 1; constructor; auto. Qed.
Lemma Forall2_flip {A B} (R : A -> B -> Prop) l1 l2 : Forall2 R l1 l2 -> Forall2 (fun b a => R a b) l2 l1.
Proof. induction 1; constructor; auto. Qed.

Section P.
  Context (deep : nat -> nat -> bool) (F : features) (S : snapshot).
  Local Notation equals := (equals deep F S).
  Local Notation equalsObjects eq := (equalsObjects eq).
  Local Notation equalsFeature := (equalsFeature deep F S).
  Local Notation equalsFeatures := (equalsFeatures deep F S).

  Definition involution (m : matches) : Prop := forall a b, m a = Some b -> m b = Some a.
  Definition same_map (m m' : matches) : Prop := forall x, m x = m' x.
  Definition extend (m m' : matches) : Prop := forall a b, m a = Some b -> m' a = Some b.

  Lemma set_match_at m a b : set_match m a b a = Some b /\ set_match m a b b = Some a.
  Proof.
    unfold set_match. rewrite Nat.eqb_refl. destruct (Nat.eqb_spec a b) as [->|]; rewrite ?Nat.eqb_refl; split; reflexivity.
  Qed.
  Lemma set_match_other m a b x : x <> a -> x <> b -> set_match m a b x = m x.
  Proof. intros H1 H2. unfold set_match. destruct (Nat.eqb_spec x b); [contradiction|]. destruct (Nat.eqb_spec x a); [contradiction|]. reflexivity. Qed.
  Lemma set_involution m a b : involution m -> m a = None -> m b = None -> involution (set_match m a b).
  Proof.
    intros I Ha Hb x y E. destruct (Nat.eq_dec x a) as [->|Hxa].
    - rewrite (proj1 (set_match_at m a b)) in E. injection E as <-. apply (set_match_at m a b).
    - destruct (Nat.eq_dec x b) as [->|Hxb].
      + rewrite (proj2 (set_match_at m a b)) in E. injection E as <-. apply (set_match_at m a b).
      + rewrite set_match_other in E by assumption. apply I in E. rewrite set_match_other; [exact E|congruence|congruence].
  Qed.
  Lemma set_extend m a b : m a = None -> m b = None -> extend m (set_match m a b).
  Proof. intros Ha Hb x y E. rewrite set_match_other; [exact E|congruence|congruence]. Qed.

  Lemma primitives_spec l1 l2 : equalsPrimitiveList deep l1 l2 = true <-> same_primitives deep l1 l2.
  Proof.
    unfold equalsPrimitiveList, same_primitives. split.
    - destruct (length l1 =? length l2)%nat; [|discriminate]. revert l2. induction l1 as [|p l1 IH]; intros [|q l2]; cbn; try discriminate; [constructor|].
      destruct (deep p q) eqn:E; [|discriminate]. intro H. constructor; [exact E|now apply IH].
    - intro H. rewrite (Forall2_length _ _ _ H), Nat.eqb_refl. induction H as [|p q l1 l2 E H IH]; [reflexivity|]. cbn. now rewrite E.
  Qed.
  Lemma attribute_spec a b f : equalsAttribute deep F S a b f = Some true <-> same_attribute deep (isMany F f) (eAttr S a f) (eAttr S b f).
  Proof.
    unfold equalsAttribute, same_attribute. destruct (eAttr S a f) as [|p|l1], (eAttr S b f) as [|q|l2]; try (split; [discriminate|intros []]); try tauto.
    - destruct (isMany F f); split; try discriminate; try (intros [H _]; discriminate). + intros [= E]. now split. + intros [_ ->]. reflexivity.
    - destruct (isMany F f); split; try discriminate; try (intros [H _]; discriminate).
      + intros [= E]. split; [reflexivity|now apply primitives_spec].
      + intros [_ H]. apply primitives_spec in H. now rewrite H.
  Qed.

  (** ** soundness *)
  Definition pairs (m : matches) : obj -> obj -> Prop := fun a b => m a = Some b.
  (** what a call that answers true does to the map *)
  Definition grows (m m' : matches) : Prop :=
    involution m' /\ extend m m' /\ forall x y, m' x = Some y -> m x = Some y \/ look_same deep F S (pairs m') x y.
  Lemma look_same_extend m m' x y : extend m m' -> look_same deep F S (pairs m) x y -> look_same deep F S (pairs m') x y.
  Proof.
    intros X [H|[H|(H1 & H2 & H3 & H4)]]; [now left|right; now left|]. right. right. split; [exact H1|split; [exact H2|split; [exact H3|]]].
    intros f Hf Hd. destruct (H4 f Hf Hd) as [E1 E2]. split; [exact E1|]. intro E. specialize (E2 E). destruct (isAttribute F f); [exact E2|].
    destruct E2 as [E2 E3]. split; [|exact E3]. revert E2. apply Forall2_impl. intros p q. apply X.
  Qed.
  Lemma grows_refl m : involution m -> grows m m.
  Proof. intro I. split; [exact I|split; [intros a b E; exact E|]]. intros x y E. now left. Qed.
  Lemma grows_trans m m' m'' : grows m m' -> grows m' m'' -> grows m m''.
  Proof.
    intros (I1 & X1 & G1) (I2 & X2 & G2). split; [exact I2|split; [intros a b E; apply X2, X1, E|]].
    intros x y E. destruct (G2 x y E) as [E'|L]; [|now right]. destruct (G1 x y E') as [E''|L]; [now left|]. right. exact (look_same_extend _ _ _ _ X2 L).
  Qed.

  Definition good (eq : matches -> obj -> obj -> res) : Prop :=
    forall m a b m', involution m -> eq m a b = R true m' -> grows m m' /\ m' a = Some b.
  Lemma objects_sound eq : good eq -> forall l1 l2 m m', involution m -> equalsObjects eq m l1 l2 = R true m' ->
    grows m m' /\ Forall2 (pairs m') l1 l2.
  Proof.
    intro G. induction l1 as [|a l1 IH]; intros [|b l2] m m' I E; cbn in E; try discriminate.
    - injection E as <-. split; [now apply grows_refl|constructor].
    - destruct (eq m a b) as [[] m1| |] eqn:E1; try discriminate. destruct (G m a b m1 I E1) as [G1 P1].
      destruct (IH l2 m1 m' (proj1 G1) E) as [G2 P2]. split; [exact (grows_trans _ _ _ G1 G2)|]. constructor; [|exact P2].
      apply (proj1 (proj2 G2)). exact P1.
  Qed.
  Lemma feature_sound eq : good eq -> forall m a b f m', involution m -> equalsFeature eq m a b f = R true m' ->
    grows m m' /\ same_feature deep F S (pairs m') a b f.
  Proof.
    intros G m a b f m' I E. unfold EqualModel.equalsFeature in E. unfold same_feature.
    destruct (eIsSet S a f) eqn:Sa, (eIsSet S b f) eqn:Sb; cbn [andb Bool.eqb] in E; try discriminate.
    - destruct (isAttribute F f) eqn:At.
      + destruct (equalsAttribute deep F S a b f) as [r|] eqn:Er; [|discriminate]. injection E as -> <-.
        split; [now apply grows_refl|]. split; [reflexivity|]. intros _. now apply attribute_spec.
      + unfold equalsReference in E. destruct (isMany F f) eqn:Mf.
        * unfold equalsObjectList in E. destruct (length (eRefs S a f) =? length (eRefs S b f))%nat; [|discriminate].
          destruct (objects_sound eq G _ _ _ _ I E) as [G1 P1]. split; [exact G1|]. split; [reflexivity|]. intros _. split; [exact P1|discriminate].
        * destruct (eRefs S a f) as [|x [|]] eqn:Ea; try discriminate. destruct (eRefs S b f) as [|y [|]] eqn:Eb; try discriminate.
          destruct (G _ _ _ _ I E) as [G1 P1]. split; [exact G1|]. split; [reflexivity|]. intros _. split; [repeat constructor; exact P1|reflexivity].
    - injection E as <-. split; [now apply grows_refl|]. split; [reflexivity|discriminate].
  Qed.
  Lemma features_sound eq : good eq -> forall fs m a b m', involution m -> equalsFeatures eq m a b fs = R true m' ->
    grows m m' /\ forall f, In f fs -> isDerived F f = false -> same_feature deep F S (pairs m') a b f.
  Proof.
    intro G. induction fs as [|f fs IH]; intros m a b m' I E; cbn in E.
    - injection E as <-. split; [now apply grows_refl|intros f []].
    - destruct (isDerived F f) eqn:D.
      + destruct (IH m a b m' I E) as [G1 H1]. split; [exact G1|]. intros g [<-|Hg] Hd; [congruence|now apply H1].
      + destruct (equalsFeature eq m a b f) as [[] m1| |] eqn:E1; try discriminate.
        destruct (feature_sound eq G _ _ _ _ _ I E1) as [G1 H1]. destruct (IH m1 a b m' (proj1 G1) E) as [G2 H2].
        split; [exact (grows_trans _ _ _ G1 G2)|]. intros g [<-|Hg] Hd; [|now apply H2].
        destruct H1 as [S1 S2]. split; [exact S1|]. intro Sg. specialize (S2 Sg). destruct (isAttribute F f); [exact S2|].
        destruct S2 as [S2 S3]. split; [|exact S3]. revert S2. apply Forall2_impl. intros p q. apply (proj1 (proj2 G2)).
  Qed.
  Context (deep_sym : forall p q, deep p q = deep q p).
  Lemma same_feature_sym m a b f : involution m -> same_feature deep F S (pairs m) a b f -> same_feature deep F S (pairs m) b a f.
  Proof.
    intros I [E1 E2]. split; [now symmetry|]. intro Sb. rewrite <- E1 in Sb. specialize (E2 Sb). destruct (isAttribute F f).
    - unfold same_attribute in *. destruct (eAttr S a f), (eAttr S b f); try contradiction; try exact E2.
      + destruct E2 as [E2 E3]. split; [exact E2|now rewrite deep_sym].
      + destruct E2 as [E2 E3]. split; [exact E2|]. apply Forall2_flip in E3. revert E3. apply Forall2_impl. intros p q. now rewrite deep_sym.
    - destruct E2 as [E2 E3]. split; [apply Forall2_flip in E2; revert E2; apply Forall2_impl; intros p q; apply I|]. intro Mf.
      rewrite <- (Forall2_length _ _ _ E2). now apply E3.
  Qed.
  Lemma look_same_sym m a b : involution m -> look_same deep F S (pairs m) a b -> look_same deep F S (pairs m) b a.
  Proof.
    intros I [->|[(u & H1 & H2)|(H1 & H2 & H3 & H4)]]; [now left|right; left; now exists u|]. right. right.
    split; [exact H2|split; [exact H1|split; [now symmetry|]]]. intros f Hf Hd. apply same_feature_sym; [exact I|]. apply H4; [now rewrite H3|exact Hd].
  Qed.

  Lemma grows_set m a b : involution m -> m a = None -> m b = None -> look_same deep F S (pairs (set_match m a b)) a b -> grows m (set_match m a b).
  Proof.
    intros I Ha Hb L. pose proof (set_involution m a b I Ha Hb) as I'. split; [exact I'|split; [now apply set_extend|]].
    intros x y E. destruct (Nat.eq_dec x a) as [->|Hxa].
    - rewrite (proj1 (set_match_at m a b)) in E. injection E as <-. now right.
    - destruct (Nat.eq_dec x b) as [->|Hxb].
      + rewrite (proj2 (set_match_at m a b)) in E. injection E as <-. right. now apply look_same_sym.
      + rewrite set_match_other in E by assumption. now left.
  Qed.
  Lemma equals_good n : good (equals n).
  Proof.
    induction n as [|n IH]; intros m a b m' I E; cbn [EqualModel.equals] in E; [discriminate|].
    destruct (m a) as [x|] eqn:Ea.
    - injection E as Ex <-. apply Nat.eqb_eq in Ex. subst x. split; [now apply grows_refl|exact Ea].
    - destruct (m b) as [y|] eqn:Eb.
      + injection E as Ey <-. apply Nat.eqb_eq in Ey. subst y. split; [now apply grows_refl|now apply I].
      + destruct (Nat.eqb_spec a b) as [->|Hab].
        { injection E as <-. split; [apply grows_set; auto; now left|apply set_match_at]. }
        destruct (proxyURI S a) as [u|] eqn:Pa.
        { destruct (proxyURI S b) as [v|] eqn:Pb; [|discriminate]. destruct (Nat.eqb_spec u v) as [->|]; [|discriminate]. injection E as <-.
          split; [apply grows_set; auto; right; left; now exists v|apply set_match_at]. }
        destruct (proxyURI S b) as [v|] eqn:Pb; [discriminate|]. destruct (Nat.eqb_spec (eClass S a) (eClass S b)) as [Ec|]; [|discriminate].
        destruct (features_sound (equals n) IH _ _ _ _ _ (set_involution m a b I Ea Eb) E) as [(I' & X & G) H].
        assert (Hm : m' a = Some b) by (apply X, set_match_at).
        assert (L : look_same deep F S (pairs m') a b).
        { right. right. split; [exact Pa|split; [exact Pb|split; [exact Ec|exact H]]]. }
        split; [|exact Hm]. split; [exact I'|split; [intros x y Exy; apply X, set_extend; assumption|]].
        intros x y Exy. destruct (G x y Exy) as [E'|]; [|now right].
        destruct (Nat.eq_dec x a) as [->|Hxa]; [rewrite Hm in Exy; injection Exy as <-; now right|].
        destruct (Nat.eq_dec x b) as [->|Hxb]; [rewrite (I' _ _ Hm) in Exy; injection Exy as <-; right; now apply look_same_sym|].
        rewrite set_match_other in E' by assumption. now left.
  Qed.
  Lemma equals_sound n a b m : equals n no_match a b = R true m -> matching deep F S (pairs m) /\ m a = Some b.
  Proof.
    intro E. destruct (equals_good n no_match a b m) as [(I & _ & G) H]; [discriminate|exact E|]. split; [|exact H]. split.
    - exact I.
    - intros x y z E1 E2. unfold pairs in *. congruence.
    - intros x y Exy. destruct (G x y Exy) as [H0|H0]; [discriminate|exact H0].
  Qed.

  (** ** completeness: with a matching the answer is never false *)
  Section Complete.
    Context (M : obj -> obj -> Prop) (HM : matching deep F S M).
    Definition below (m : matches) : Prop := forall x y, m x = Some y -> M x y.
    Definition never (eq : matches -> obj -> obj -> res) : Prop :=
      forall m a b, below m -> M a b -> match eq m a b with R b' m' => b' = true /\ below m' | RPanic => False | RFuel => True end.
    Lemma objects_never eq : never eq -> forall l1 l2 m, below m -> Forall2 M l1 l2 ->
      match equalsObjects eq m l1 l2 with R b' m' => b' = true /\ below m' | RPanic => False | RFuel => True end.
    Proof.
      intro N. induction l1 as [|a l1 IH]; intros l2 m B H; inversion H as [|? b ? l2' Hab Hl]; subst; cbn; [now split|].
      specialize (N m a b B Hab). destruct (eq m a b) as [r m1| |]; [destruct N as [-> B1]; now apply IH|contradiction|exact Logic.I].
    Qed.
    Lemma feature_never eq : never eq -> forall m a b f, below m -> same_feature deep F S M a b f ->
      match equalsFeature eq m a b f with R b' m' => b' = true /\ below m' | RPanic => False | RFuel => True end.
    Proof.
      intros N m a b f B [E1 E2]. unfold EqualModel.equalsFeature. rewrite <- E1. destruct (eIsSet S a f); cbn [andb Bool.eqb]; [|now split].
      specialize (E2 eq_refl). destruct (isAttribute F f).
      - apply attribute_spec in E2. rewrite E2. now split.
      - destruct E2 as [E2 E3]. unfold equalsReference. destruct (isMany F f).
        + unfold equalsObjectList. rewrite (Forall2_length _ _ _ E2), Nat.eqb_refl. now apply objects_never.
        + specialize (E3 eq_refl). destruct (eRefs S a f) as [|x [|]]; try discriminate E3. inversion E2 as [|? y ? ? Hxy Hnil]; subst. inversion Hnil; subst.
          specialize (N m x y B Hxy). exact N.
    Qed.
    Lemma features_never eq : never eq -> forall fs m a b, below m -> (forall f, In f fs -> isDerived F f = false -> same_feature deep F S M a b f) ->
      match equalsFeatures eq m a b fs with R b' m' => b' = true /\ below m' | RPanic => False | RFuel => True end.
    Proof.
      intro N. induction fs as [|f fs IH]; intros m a b B H; cbn; [now split|].
      destruct (isDerived F f) eqn:D; [apply IH; [exact B|intros g Hg; apply H; now right]|].
      pose proof (feature_never eq N m a b f B (H f (or_introl eq_refl) D)) as K.
      destruct (equalsFeature eq m a b f) as [r m1| |]; [destruct K as [-> B1]|contradiction|exact Logic.I].
      apply IH; [exact B1|intros g Hg; apply H; now right].
    Qed.
    Lemma below_set m a b : below m -> M a b -> below (set_match m a b).
    Proof.
      intros B H x y E. destruct (Nat.eq_dec x a) as [->|Hxa].
      - rewrite (proj1 (set_match_at m a b)) in E. injection E as <-. exact H.
      - destruct (Nat.eq_dec x b) as [->|Hxb].
        + rewrite (proj2 (set_match_at m a b)) in E. injection E as <-. now apply (partner_sym _ _ _ _ HM).
        + rewrite set_match_other in E by assumption. now apply B.
    Qed.
    Lemma equals_never n : never (equals n).
    Proof.
      induction n as [|n IH]; intros m a b B H; cbn [EqualModel.equals]; [exact Logic.I|].
      destruct (m a) as [x|] eqn:Ea.
      - rewrite (partner_one _ _ _ _ HM a x b (B _ _ Ea) H), Nat.eqb_refl. now split.
      - destruct (m b) as [y|] eqn:Eb.
        + rewrite (partner_one _ _ _ _ HM b y a (B _ _ Eb) (partner_sym _ _ _ _ HM _ _ H)), Nat.eqb_refl. now split.
        + pose proof (below_set m a b B H) as B'. destruct (Nat.eqb_spec a b) as [Hab|Hab]; [now split|].
          destruct (partner_same _ _ _ _ HM a b H) as [Hab'|[(u & H1 & H2)|(H1 & H2 & H3 & H4)]]; [contradiction| |].
          * rewrite H1, H2, Nat.eqb_refl. now split.
          * rewrite H1, H2, H3, Nat.eqb_refl. apply features_never; [exact IH|exact B'|]. rewrite <- H3. exact H4.
    Qed.
  End Complete.

  (** ** termination *)
  Definition unmatched (U : list obj) (m : matches) : nat := length (filter (fun x => match m x with None => true | Some _ => false end) U).
  Lemma unmatched_set U m a b : In a U -> m a = None -> (unmatched U (set_match m a b) < unmatched U m)%nat.
  Proof.
    unfold unmatched. intros Ha Ea. induction U as [|x U IH]; [destruct Ha|].
    assert (Le : (length (filter (fun x => match set_match m a b x with None => true | Some _ => false end) U) <=
                  length (filter (fun x => match m x with None => true | Some _ => false end) U))%nat).
    { clear. induction U as [|x U IH]; [reflexivity|]. cbn [filter]. unfold set_match at 1. destruct (x =? b)%nat; [destruct (m x); cbn [length]; lia|].
      destruct (x =? a)%nat; [destruct (m x); cbn [length]; lia|]. destruct (m x); cbn [length]; lia. }
    cbn [filter]. destruct Ha as [->|Ha].
    - rewrite (proj1 (set_match_at m a b)), Ea. cbn [length]. lia.
    - specialize (IH Ha). unfold set_match at 1. destruct (x =? b)%nat; [destruct (m x); cbn [length]; lia|].
      destruct (x =? a)%nat; [destruct (m x); cbn [length]; lia|]. destruct (m x); cbn [length]; lia.
  Qed.
  Lemma unmatched_extend U m m' : extend m m' -> (unmatched U m' <= unmatched U m)%nat.
  Proof.
    intro X. unfold unmatched. induction U as [|x U IH]; [reflexivity|]. cbn [filter]. destruct (m x) as [y|] eqn:E.
    - rewrite (X _ _ E). exact IH.
    - destruct (m' x); cbn [length]; lia.
  Qed.
  Context (U : list obj) (HU : closed S U).
  Definition enough (k : nat) (eq : matches -> obj -> obj -> res) : Prop :=
    forall m a b, involution m -> In a U -> In b U -> (unmatched U m < k)%nat -> eq m a b <> RFuel.
  Lemma objects_enough k eq : good eq -> enough k eq -> forall l1 l2 m, involution m -> (forall x, In x l1 -> In x U) -> (forall x, In x l2 -> In x U) ->
    (unmatched U m < k)%nat -> equalsObjects eq m l1 l2 <> RFuel.
  Proof.
    intros G E. induction l1 as [|a l1 IH]; intros [|b l2] m I H1 H2 Hk; cbn; try discriminate.
    pose proof (E m a b I (H1 a (or_introl eq_refl)) (H2 b (or_introl eq_refl)) Hk) as Ne.
    destruct (eq m a b) as [[] m1| |] eqn:E1; try discriminate; [|contradiction].
    destruct (G _ _ _ _ I E1) as [(I1 & X1 & _) _]. apply IH; [exact I1|intros x Hx; apply H1; now right|intros x Hx; apply H2; now right|].
    pose proof (unmatched_extend U _ _ X1). lia.
  Qed.
  Lemma feature_enough k eq : good eq -> enough k eq -> forall m a b f, involution m -> In a U -> In b U -> (unmatched U m < k)%nat ->
    equalsFeature eq m a b f <> RFuel.
  Proof.
    intros G E m a b f I Ha Hb Hk. unfold EqualModel.equalsFeature. destruct (_ && _); [|discriminate].
    destruct (isAttribute F f); [destruct (equalsAttribute deep F S a b f); discriminate|].
    unfold equalsReference. destruct (isMany F f).
    - unfold equalsObjectList. destruct (_ =? _)%nat; [|discriminate]. apply (objects_enough k); try assumption; intros x Hx; [now apply (HU a f)|now apply (HU b f)].
    - destruct (eRefs S a f) as [|x [|]] eqn:Ea; try discriminate. destruct (eRefs S b f) as [|y [|]] eqn:Eb; try discriminate.
      apply E; [exact I| | |exact Hk]; [apply (HU a f); [exact Ha|rewrite Ea; now left]|apply (HU b f); [exact Hb|rewrite Eb; now left]].
  Qed.
  Lemma features_enough k eq : good eq -> enough k eq -> forall fs m a b, involution m -> In a U -> In b U -> (unmatched U m < k)%nat ->
    equalsFeatures eq m a b fs <> RFuel.
  Proof.
    intros G E. induction fs as [|f fs IH]; intros m a b I Ha Hb Hk; cbn; [discriminate|].
    destruct (isDerived F f); [now apply IH|]. pose proof (feature_enough k eq G E m a b f I Ha Hb Hk) as Ne.
    destruct (equalsFeature eq m a b f) as [[] m1| |] eqn:E1; try discriminate; [|contradiction].
    destruct (feature_sound eq G _ _ _ _ _ I E1) as [(I1 & X1 & _) _]. apply IH; [exact I1|exact Ha|exact Hb|].
    pose proof (unmatched_extend U _ _ X1). lia.
  Qed.
  Lemma equals_enough n : enough n (equals n).
  Proof.
    induction n as [|n IH]; intros m a b I Ha Hb Hk; [lia|]. cbn [EqualModel.equals].
    destruct (m a) as [x|] eqn:Ea; [discriminate|]. destruct (m b) as [y|] eqn:Eb; [discriminate|].
    destruct (a =? b)%nat; [discriminate|]. destruct (proxyURI S a); [destruct (proxyURI S b); [destruct (_ =? _)%nat; discriminate|discriminate]|].
    destruct (proxyURI S b); [discriminate|]. destruct (_ =? _)%nat; [|discriminate].
    apply (features_enough n); [apply equals_good|exact IH|now apply set_involution|exact Ha|exact Hb|].
    pose proof (unmatched_set U m a b Ha Ea). lia.
  Qed.
  Lemma equals_terminates n a b : In a U -> In b U -> (length U < n)%nat -> equals n no_match a b <> RFuel.
  Proof.
    intros Ha Hb Hn. apply equals_enough; [discriminate|exact Ha|exact Hb|]. unfold unmatched.
    assert (Lf : forall p : obj -> bool, (length (filter p U) <= length U)%nat) by (intro p; clear; induction U as [|x l IH]; [reflexivity|]; cbn; destruct (p x); cbn; lia).
    specialize (Lf (fun x => match no_match x with Some _ => false | None => true end)). lia.
  Qed.
  (** ** no panic on well-typed objects *)
  Definition calm (eq : matches -> obj -> obj -> res) : Prop := forall m a b, eq m a b <> RPanic.
  Lemma objects_calm eq : calm eq -> forall l1 l2 m, equalsObjects eq m l1 l2 <> RPanic.
  Proof.
    intro C. induction l1 as [|a l1 IH]; intros [|b l2] m; cbn; try discriminate. pose proof (C m a b) as N.
    destruct (eq m a b) as [[] m1| |]; try discriminate; [apply IH|contradiction].
  Qed.
  Lemma feature_calm eq : calm eq -> well_typed F S -> forall m a b f, eClass S a = eClass S b -> isDerived F f = false -> In f (ownFeatures F (eClass S a)) ->
    equalsFeature eq m a b f <> RPanic.
  Proof.
    intros C W m a b f Ec Hd Hf. unfold EqualModel.equalsFeature. destruct (eIsSet S a f) eqn:Sa, (eIsSet S b f) eqn:Sb; try discriminate.
    pose proof (W a f Sa Hd Hf) as Wa. rewrite Ec in Hf. pose proof (W b f Sb Hd Hf) as Wb. cbn [andb]. destruct (isAttribute F f).
    - unfold equalsAttribute. destruct (eAttr S a f), (eAttr S b f); try discriminate; rewrite ?Wa, ?Wb in *; try discriminate; congruence.
    - unfold equalsReference. destruct (isMany F f).
      + unfold equalsObjectList. destruct (_ =? _)%nat; [apply objects_calm; exact C|discriminate].
      + specialize (Wa eq_refl). specialize (Wb eq_refl). destruct (eRefs S a f) as [|x [|]]; try discriminate Wa. destruct (eRefs S b f) as [|y [|]]; try discriminate Wb.
        apply C.
  Qed.
  Lemma features_calm eq : calm eq -> well_typed F S -> forall fs m a b, eClass S a = eClass S b -> (forall f, In f fs -> In f (ownFeatures F (eClass S a))) ->
    equalsFeatures eq m a b fs <> RPanic.
  Proof.
    intros C W. induction fs as [|f fs IH]; intros m a b Ec Hf; cbn; [discriminate|].
    destruct (isDerived F f) eqn:D; [apply IH; [exact Ec|intros g Hg; apply Hf; now right]|].
    pose proof (feature_calm eq C W m a b f Ec D (Hf f (or_introl eq_refl))) as N.
    destruct (equalsFeature eq m a b f) as [[] m1| |]; try discriminate; [|contradiction]. apply IH; [exact Ec|intros g Hg; apply Hf; now right].
  Qed.
  Lemma equals_calm n : well_typed F S -> calm (equals n).
  Proof.
    intro W. induction n as [|n IH]; intros m a b; cbn [EqualModel.equals]; [discriminate|].
    destruct (m a); [discriminate|]. destruct (m b); [discriminate|]. destruct (a =? b)%nat; [discriminate|].
    destruct (proxyURI S a); [destruct (proxyURI S b); [destruct (_ =? _)%nat; discriminate|discriminate]|].
    destruct (proxyURI S b); [discriminate|]. destruct (Nat.eqb_spec (eClass S a) (eClass S b)) as [Ec|]; [|discriminate].
    apply features_calm; [exact IH|exact W|exact Ec|auto].
  Qed.

  (** ** together *)
  Lemma equals_exact n a b : well_typed F S -> In a U -> In b U -> (length U < n)%nat ->
    exists r m, equals n no_match a b = R r m /\ (r = true <-> exists M, matching deep F S M /\ M a b).
  Proof.
    intros W Ha Hb Hn. pose proof (equals_terminates n a b Ha Hb Hn) as T. pose proof (equals_calm n W no_match a b) as C.
    destruct (equals n no_match a b) as [r m| |] eqn:E; [|contradiction|contradiction]. exists r, m. split; [reflexivity|]. split.
    - intros ->. destruct (equals_sound n a b m E) as [HM H]. now exists (pairs m).
    - intros (M & HM & H). pose proof (equals_never M HM n no_match a b) as K. rewrite E in K. apply K; [discriminate|exact H].
  Qed.
  Lemma equals_all_exact n l1 l2 : well_typed F S -> (forall x, In x l1 -> In x U) -> (forall x, In x l2 -> In x U) -> (length U < n)%nat ->
    exists r m, EqualsAll deep F S n l1 l2 = R r m /\ (r = true <-> exists M, matching deep F S M /\ Forall2 M l1 l2).
  Proof.
    intros W H1 H2 Hn. unfold EqualsAll, equalsObjectList. destruct (Nat.eqb_spec (length l1) (length l2)) as [El|El].
    - assert (T : equalsObjects (equals n) no_match l1 l2 <> RFuel).
      { apply (objects_enough n); [apply equals_good|apply equals_enough|discriminate|exact H1|exact H2|].
        unfold unmatched. assert (Lf : forall p : obj -> bool, (length (filter p U) <= length U)%nat) by (intro p; clear; induction U as [|x l IH]; [reflexivity|]; cbn; destruct (p x); cbn; lia).
        specialize (Lf (fun x => match no_match x with Some _ => false | None => true end)). lia. }
      pose proof (objects_calm (equals n) (equals_calm n W) l1 l2 no_match) as C.
      destruct (equalsObjects (equals n) no_match l1 l2) as [r m| |] eqn:E; [|contradiction|contradiction]. exists r, m. split; [reflexivity|]. split.
      + intros ->. destruct (objects_sound (equals n) (equals_good n) l1 l2 no_match m) as [(I & _ & G) H]; [discriminate|exact E|].
        exists (pairs m). split; [|exact H]. split; [exact I|intros x y z E1 E2; unfold pairs in *; congruence|].
        intros x y Exy. destruct (G x y Exy) as [H0|H0]; [discriminate|exact H0].
      + intros (M & HM & H). pose proof (objects_never M (equals n) (equals_never M HM n) l1 l2 no_match) as K. rewrite E in K. apply K; [discriminate|exact H].
    - exists false, no_match. split; [reflexivity|]. split; [discriminate|]. intros (M & _ & H). apply Forall2_length in H. contradiction.
  Qed.
End P.
