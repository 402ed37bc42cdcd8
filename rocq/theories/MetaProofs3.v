(** Proofs about MetaModel: default values. *)
From Verif Require Import Base Chars FloatModel LiteralModel MetaModel MetaSpec MetaProofs MetaProofs2.

Section Meta.
  Context (create : nat -> datatype -> str -> option gval) (convert : nat -> datatype -> gval -> option str).
  Notation step := (step create convert).
  Notation run := (run create convert).

  Ltac cases_set := cbn; unfold upd; match goal with |- context [Nat.eqb ?a ?b] => destruct (Nat.eqb_spec a b); subst; cbn; auto end.
  Ltac open_default ST :=
    unfold setFeatureDefault in ST;
    repeat match type of ST with context [match ?x with _ => _ end] => destruct x eqn:?; try discriminate end;
    injection ST as <-.

  (** *** the default values of data types *)
  Definition values_ok (w : world) : Prop := forall c, cvalueset (classifiers w c) = false -> cvalue (classifiers w c) = VNil.
  Lemma type_switch_none d : match type_switch (getInstanceTypeName d) with Some GBytes | None => getDefaultValue d = VNil | _ => True end.
  Proof using. clear. unfold getDefaultValue. destruct (type_switch _) as [[] | ]; auto. Qed.
  Lemma typeDefault_value c w : values_ok w -> snd (typeDefault c w) = declared_default (classifiers w c).
  Proof using.
    clear. intros V. unfold typeDefault, declared_default. destruct (cdata _) as [d | ]; [ | reflexivity].
    destruct (denum d) as [[ | l ls] | ]; try reflexivity.
    destruct (cvalueset _) eqn:S; [reflexivity | ]. pose proof (type_switch_none d) as T.
    destruct (type_switch _) as [[] | ]; cbn; auto; rewrite T; auto.
  Qed.
  Lemma typeDefault_same c w d : values_ok w ->
    values_ok (fst (typeDefault c w)) /\ declared_default (classifiers (fst (typeDefault c w)) d) = declared_default (classifiers w d).
  Proof using.
    clear. intros V. unfold typeDefault. destruct (cdata (classifiers w c)) as [t | ] eqn:CD; [ | auto].
    destruct (denum t) eqn:DE; [auto | ]. destruct (cvalueset (classifiers w c)) eqn:S; [auto | ].
    pose proof (type_switch_none t) as T.
    assert (G : getDefaultValue t = VNil ->
      let w' := set_classifier c (with_value (cvalue (classifiers w c)) true (classifiers w c)) w in
      values_ok w' /\ declared_default (classifiers w' d) = declared_default (classifiers w d)).
    { intros G. split.
      - intros x. cbn. unfold upd. destruct (Nat.eqb_spec x c); [discriminate | apply V].
      - cbn. unfold upd. destruct (Nat.eqb_spec d c); [subst | reflexivity]. unfold declared_default. cbn. rewrite CD, DE, S, G. auto. }
    destruct (type_switch _) as [[] | ]; auto.
  Qed.
  Lemma featureDefault_same f w w' v d : getFeatureDefault create f w = Some (w', v) -> values_ok w ->
    values_ok w' /\ declared_default (classifiers w' d) = declared_default (classifiers w d).
  Proof using.
    clear convert. unfold getFeatureDefault. intros H V.
    destruct (ftype _) as [c | ]; [ | injection H as <- <-; auto].
    destruct (fliteral _).
    - destruct (isMany _); [injection H as <- <-; auto | ].
      pose proof (typeDefault_same c w d V) as T. destruct (typeDefault c w) as [w1 v1]. injection H as <- <-. exact T.
    - destruct (cdata _); [ | injection H as <- <-; auto]. destruct (cpackage _); [ | injection H as <- <-; auto].
      destruct (is_factory _ _); [injection H as <- <-; auto | ]. destruct (cserial _).
      + destruct (pfactory _); [ | discriminate]. destruct (create _ _ _); [ | discriminate]. injection H as <- <-. auto.
      + injection H as <- <-. auto.
  Qed.
  Lemma step_values o w w' : step o w = Some w' -> values_ok w -> values_ok w'.
  Proof.
    intros ST V. destruct o; cbn in ST; try (injection ST as <-; auto; fail).
    - injection ST as <-. unfold addClassifier. destruct (in_list _ c); [auto | ].
      assert (V1 : values_ok (match cpackage (classifiers w c) with Some q => removeClassifier q c w | None => w end)).
      { destruct (cpackage _); [ | auto]. unfold removeClassifier. destruct (in_list _ c); [ | auto].
        intros d. cases_set; apply V. }
      intros d. cbn zeta. cbn [classifiers set_classifier]. unfold upd. destruct (Nat.eqb_spec d c); [subst; cbn | ]; apply V1.
    - injection ST as <-. unfold removeClassifier. destruct (in_list _ c); [ | auto]. intros d. cases_set; apply V.
    - injection ST as <-. intros d. cases_set; apply V.
    - injection ST as <-. intros d. cases_set; apply V.
    - injection ST as <-. intros d. cases_set. unfold instance_name. destruct (cdata _); apply V.
    - injection ST as <-. intros d. cases_set; apply V.
    - injection ST as <-. intros d. cases_set; discriminate.
    - open_default ST. auto.
    - injection ST as <-. unfold getEClassifier. destruct (pcache _); auto.
    - destruct (getType p n w) as [[w1 r] | ] eqn:E; [ | discriminate]. injection ST as <-. apply getType_frame in E. destruct E as (X & _).
      intros d. rewrite X. apply V.
    - destruct (getName e w) as [[w1 r] | ] eqn:E; [ | discriminate]. injection ST as <-. apply getName_frame in E. destruct E as (X & _).
      intros d. rewrite X. apply V.
    - destruct (getFeatureDefault create f w) as [[w1 r] | ] eqn:E; [ | discriminate]. injection ST as <-.
      exact (proj1 (featureDefault_same _ _ _ _ O E V)).
    - injection ST as <-. exact (proj1 (typeDefault_same _ _ O V)).
    - injection ST as <-. unfold getReferenceType. destruct (freftype _); [auto | ]. destruct (ftype _); [ | auto]. destruct (cdata _); auto.
    - injection ST as <-. unfold getClassifierID. destruct (cnumber _ =? -1); [ | auto]. intros d. cases_set; apply V.
  Qed.
  Lemma run_values h w w' : run h w = Some w' -> values_ok w -> values_ok w'.
  Proof.
    revert w. induction h as [ | o h IH]; cbn; intros w R V; [injection R as <-; exact V | ].
    destruct (step o w) as [w1 | ] eqn:E; [ | discriminate]. eapply IH; eauto. eapply step_values; eauto.
  Qed.
  Lemma step_declared c o w w' : keeps_data_type c o -> step o w = Some w' -> values_ok w ->
    declared_default (classifiers w' c) = declared_default (classifiers w c).
  Proof.
    intros K ST V.
    assert (DV : forall x y, cdata x = cdata y -> cvalueset x = cvalueset y -> cvalue x = cvalue y -> declared_default x = declared_default y).
    { intros x y A B C. unfold declared_default. now rewrite A, B, C. }
    assert (RM : forall q d, declared_default (classifiers (removeClassifier q d w) c) = declared_default (classifiers w c)).
    { intros q d. unfold removeClassifier. destruct (in_list _ d); [ | auto]. cases_set. }
    destruct o; cbn in ST; try (injection ST as <-; auto; fail).
    - injection ST as <-. destruct (Nat.eq_dec c c0) as [<- | NE]; [ | now rewrite add_classifier_other].
      unfold addClassifier. destruct (in_list _ c); [auto | ]. cbn zeta. cbn [classifiers set_classifier]. rewrite upd_eq.
      transitivity (declared_default (classifiers (match cpackage (classifiers w c) with Some q => removeClassifier q c w | None => w end) c)); [apply DV; reflexivity | ].
      destruct (cpackage _); auto.
    - injection ST as <-. cases_set.
    - injection ST as <-. cases_set.
    - injection ST as <-. cbn in *. rewrite upd_ne; auto.
    - injection ST as <-. cases_set.
    - injection ST as <-. cbn in *. rewrite upd_ne; auto.
    - open_default ST. auto.
    - injection ST as <-. unfold getEClassifier. destruct (pcache _); auto.
    - destruct (getType p n w) as [[w1 r] | ] eqn:E; [ | discriminate]. injection ST as <-. apply getType_frame in E. destruct E as (-> & _). auto.
    - destruct (getName e w) as [[w1 r] | ] eqn:E; [ | discriminate]. injection ST as <-. apply getName_frame in E. destruct E as (-> & _). auto.
    - destruct (getFeatureDefault create f w) as [[w1 r] | ] eqn:E; [ | discriminate]. injection ST as <-.
      exact (proj2 (featureDefault_same _ _ _ _ c E V)).
    - injection ST as <-. exact (proj2 (typeDefault_same _ _ c V)).
    - injection ST as <-. unfold getReferenceType. destruct (freftype _); [auto | ]. destruct (ftype _); [ | auto]. destruct (cdata (classifiers w n)); auto.
    - injection ST as <-. unfold getClassifierID. destruct (cnumber _ =? -1); [ | auto]. cases_set.
  Qed.
  Lemma fresh_values w : fresh w -> values_ok w.
  Proof using. clear. intros (F & _) c _. apply F. Qed.
  Theorem type_defaults c h w w' : fresh w -> Forall (keeps_data_type c) h -> run h w = Some w' ->
    snd (typeDefault c w') = declared_default (classifiers w c).
  Proof.
    intros F K R. rewrite (typeDefault_value c w' (run_values _ _ _ R (fresh_values _ F))).
    pose proof (fresh_values _ F) as V. clear F. revert w V R. induction h as [ | o h IH]; cbn; intros w V R; [congruence | ].
    destruct (step o w) as [w1 | ] eqn:E; [ | discriminate]. inversion K; subst.
    rewrite (IH H2 w1 (step_values _ _ _ E V) R). eapply step_declared; eauto.
  Qed.

  (** *** the default values of features *)
  (** what the cached default value of [f] is worth *)
  Definition default_ok (f : nat) (t : option nat) (w : world) : Prop :=
    let x := features w f in
    ftype x = t
    /\ (forall c, t = Some c ->
        (cserial (classifiers w c) = false -> fvalue x = VNil)
        /\ (forall d, cdata (classifiers w c) = Some d -> cpackage (classifiers w c) = None -> fvalue x = VNil)
        /\ (forall d p, cdata (classifiers w c) = Some d -> cpackage (classifiers w c) = Some p -> pfactory (packages w p) = None -> fvalue x = VNil /\ fvaluefactory x = None)
        /\ (forall d g, cdata (classifiers w c) = Some d -> cserial (classifiers w c) = true -> fvaluefactory x = Some g ->
            create g d (fliteral x) = Some (fvalue x))).
  Lemma default_value f t w : values_ok w -> default_ok f t w ->
    option_map snd (getFeatureDefault create f w) = default_of create w f.
  Proof.
    intros V (T & H). unfold getFeatureDefault, default_of. rewrite T. destruct t as [c | ]; [ | reflexivity].
    destruct (H c eq_refl) as (S & NP & NF & OK). destruct (fliteral (features w f)) as [ | a s] eqn:L.
    - replace (several (features w f)) with (isMany (features w f)).
      2: { unfold isMany, several. destruct (Z.eqb_spec (fupper (features w f)) (-1)); [apply orb_true_r | ].
           rewrite orb_false_r. destruct (Z.ltb_spec 1 (fupper (features w f))), (Z.leb_spec 2 (fupper (features w f))); lia. }
      destruct (isMany _); [reflexivity | ]. cbn. f_equal. now apply typeDefault_value.
    - destruct (cdata (classifiers w c)) as [d | ] eqn:CD; [ | reflexivity].
      destruct (cpackage (classifiers w c)) as [p | ] eqn:CP; [ | cbn; f_equal; eauto].
      destruct (pfactory (packages w p)) as [g | ] eqn:PF.
      + destruct (fvaluefactory (features w f)) as [g' | ] eqn:FF; cbn.
        * destruct (Nat.eqb_spec g g'); [subst g' | ].
          -- destruct (cserial (classifiers w c)) eqn:CS; cbn; [ | f_equal; auto]. symmetry. eapply OK; eauto.
          -- destruct (cserial (classifiers w c)) eqn:CS; cbn; [ | f_equal; auto]. destruct (create g d (a :: s)); reflexivity.
        * destruct (cserial (classifiers w c)) eqn:CS; cbn; [ | f_equal; auto]. destruct (create g d (a :: s)); reflexivity.
      + destruct (NF d p eq_refl eq_refl PF) as [-> ->]. reflexivity.
  Qed.
  (** a call that leaves the data type, its package and its factories in place, and [f] *)
  Lemma default_ok_ext f t w w' : features w' f = features w f ->
    (forall c, t = Some c -> cserial (classifiers w' c) = cserial (classifiers w c) /\ cdata (classifiers w' c) = cdata (classifiers w c)
                             /\ cpackage (classifiers w' c) = cpackage (classifiers w c)) ->
    (forall p, pfactory (packages w' p) = None -> pfactory (packages w p) = None) ->
    default_ok f t w -> default_ok f t w'.
  Proof.
    intros EF EC EP (T & H). split; [now rewrite EF | ]. intros c Ec. destruct (EC c Ec) as (-> & -> & ->).
    rewrite EF. destruct (H c Ec) as (A & B & C & D). repeat split; auto; intros; eapply C; eauto.
  Qed.
  Lemma step_packages o w w' : step o w = Some w' -> forall p, pfactory (packages w' p) = None -> pfactory (packages w p) = None.
  Proof.
    assert (OL : forall q g w p, pfactory (packages (on_list q g w) p) = pfactory (packages w p)).
    { intros q g u p. cbn. unfold upd. destruct (Nat.eqb_spec p q); [subst | reflexivity]. unfold changed. cbn. destruct (pdeliver _); reflexivity. }
    assert (RM : forall q c w p, pfactory (packages (removeClassifier q c w) p) = pfactory (packages w p)).
    { intros q c u p. unfold removeClassifier. destruct (in_list _ c); [apply OL | reflexivity]. }
    intros ST q. destruct o; cbn in ST; try (injection ST as <-; auto; fail).
    - injection ST as <-. unfold addClassifier. destruct (in_list _ c); [auto | ]. cbn zeta.
      change (pfactory (packages (set_classifier c ?x ?y) q)) with (pfactory (packages y q)). rewrite OL.
      destruct (cpackage _); [rewrite RM | ]; auto.
    - injection ST as <-. rewrite RM. auto.
    - injection ST as <-. cases_set.
    - injection ST as <-. cases_set. discriminate.
    - open_default ST. auto.
    - injection ST as <-. unfold getEClassifier. destruct (pcache _); [auto | ]. cases_set.
    - destruct (getType p n w) as [[w1 r] | ] eqn:E; [ | discriminate]. injection ST as <-. apply getType_frame in E. destruct E as (_ & -> & _). auto.
    - destruct (getName e w) as [[w1 r] | ] eqn:E; [ | discriminate]. injection ST as <-. apply getName_frame in E. destruct E as (_ & -> & _). auto.
    - destruct (getFeatureDefault create f w) as [[w1 r] | ] eqn:E; [ | discriminate]. injection ST as <-.
      apply getFeatureDefault_frame in E. destruct E as (-> & _). auto.
    - injection ST as <-. rewrite typeDefault_packages. auto.
    - injection ST as <-. unfold getReferenceType. destruct (freftype _); [auto | ]. destruct (ftype _); [ | auto]. destruct (cdata _); auto.
    - injection ST as <-. unfold getClassifierID. destruct (cnumber _ =? -1); auto.
  Qed.
  Lemma step_type_kept f t o w w' c : keeps_type f t o -> step o w = Some w' -> t = Some c ->
    cserial (classifiers w' c) = cserial (classifiers w c) /\ cdata (classifiers w' c) = cdata (classifiers w c)
    /\ cpackage (classifiers w' c) = cpackage (classifiers w c).
  Proof.
    intros K ST ->. destruct o; cbn in K; cbn in ST; try (injection ST as <-; auto; fail).
    - injection ST as <-. rewrite add_classifier_other by congruence. auto.
    - injection ST as <-. rewrite remove_classifier_other by congruence. auto.
    - injection ST as <-. cases_set.
    - injection ST as <-. cases_set.
    - injection ST as <-. cbn. rewrite upd_ne by congruence. auto.
    - injection ST as <-. cbn. rewrite upd_ne by congruence. auto.
    - injection ST as <-. cases_set.
    - open_default ST. auto.
    - injection ST as <-. unfold getEClassifier. destruct (pcache _); auto.
    - destruct (getType p n w) as [[w1 r] | ] eqn:E; [ | discriminate]. injection ST as <-. apply getType_frame in E. destruct E as (-> & _). auto.
    - destruct (getName e w) as [[w1 r] | ] eqn:E; [ | discriminate]. injection ST as <-. apply getName_frame in E. destruct E as (-> & _). auto.
    - destruct (getFeatureDefault create f0 w) as [[w1 r] | ] eqn:E; [ | discriminate]. injection ST as <-.
      apply getFeatureDefault_frame in E. destruct E as (_ & _ & B & _). destruct (with_value_eq _ _ (B c)) as (_ & _ & ? & ? & ? & _). auto.
    - injection ST as <-. destruct (with_value_eq _ _ (typeDefault_classifier c0 w c)) as (_ & _ & ? & ? & ? & _). auto.
    - injection ST as <-. unfold getReferenceType. destruct (freftype _); [auto | ]. destruct (ftype _); [ | auto]. destruct (cdata (classifiers w n)); auto.
    - injection ST as <-. unfold getClassifierID. destruct (cnumber _ =? -1); [ | auto]. cases_set.
  Qed.
  (** changes of [f] itself *)
  Lemma ok_set f t w x : default_ok f t w -> ftype x = t -> fvalue x = fvalue (features w f) ->
    (fvaluefactory x = None \/ (fvaluefactory x = fvaluefactory (features w f) /\ fliteral x = fliteral (features w f))) ->
    default_ok f t (set_feature f x w).
  Proof.
    intros (T & H) T' V L. split; [cbn; now rewrite upd_eq | ]. cbn. rewrite upd_eq. intros c Ec.
    destruct (H c Ec) as (A & B & C & D). rewrite V. repeat split; auto.
    - intros. eapply C; eauto.
    - destruct L as [L | [L _]]; [exact L | ]. rewrite L. eapply C; eauto.
    - intros d g X Y Z. destruct L as [L | [L1 L2]]; [congruence | ]. rewrite L2. rewrite L1 in Z. eauto.
  Qed.
  Lemma ok_ask f t w w' v : default_ok f t w -> getFeatureDefault create f w = Some (w', v) -> default_ok f t w'.
  Proof.
    intros HH E. pose proof (getFeatureDefault_frame create f w w' v E) as (FP & _ & FC & FF).
    assert (EXT : features w' f = features w f -> default_ok f t w').
    { intros EF. eapply default_ok_ext; [exact EF | | | exact HH].
      - intros c _. destruct (with_value_eq _ _ (FC c)) as (_ & _ & ? & ? & ? & _). auto.
      - intros p. now rewrite FP. }
    destruct HH as (T & H). unfold getFeatureDefault in E. rewrite T in E. destruct t as [c | ]; [ | injection E as <- <-; auto].
    destruct (H c eq_refl) as (A & B & C & D).
    destruct (fliteral (features w f)) as [ | a s] eqn:L.
    - destruct (isMany _); [injection E as <- <-; auto | ]. injection E as E. apply EXT.
      replace w' with (fst (typeDefault c w)) by (rewrite E; reflexivity). now rewrite typeDefault_features.
    - destruct (cdata (classifiers w c)) as [d | ] eqn:CD; [ | injection E as <- <-; auto].
      destruct (cpackage (classifiers w c)) as [p | ] eqn:CP; [ | injection E as <- <-; auto].
      destruct (is_factory _ _) eqn:IF; [injection E as <- <-; auto | ].
      destruct (cserial (classifiers w c)) eqn:CS.
      + destruct (pfactory (packages w p)) as [g | ] eqn:PF; [ | discriminate]. destruct (create g d (a :: s)) as [v' | ] eqn:CR; [ | discriminate].
        injection E as <- <-. split; [cbn; now rewrite upd_eq | ]. cbn. rewrite upd_eq. cbn. intros c' Ec. injection Ec as <-.
        rewrite CS, CD, CP, L. repeat split; try congruence.
      + injection E as <- <-. split; [cbn; now rewrite upd_eq | ]. cbn. rewrite upd_eq. cbn. intros c' Ec. injection Ec as <-.
        rewrite CS, CD, CP. repeat split; try congruence; intros; eauto.
  Qed.
  Lemma default_step f t o w w' : keeps_type f t o -> step o w = Some w' -> default_ok f t w -> default_ok f t w'.
  Proof.
    intros K ST H.
    assert (EXT : features w' f = features w f -> default_ok f t w').
    { intros E. eapply default_ok_ext; [exact E | | eapply step_packages; eauto | exact H].
      intros c Ec. eapply step_type_kept; eauto. }
    pose proof (proj1 H) as T.
    destruct o; cbn in K; cbn in ST; try (injection ST as <-; apply EXT; reflexivity).
    - injection ST as <-. apply EXT. unfold addClassifier. destruct (in_list _ c); [auto | ]. cbn.
      destruct (cpackage _); [ | auto]. unfold removeClassifier. destruct (in_list _ c); auto.
    - injection ST as <-. apply EXT. unfold removeClassifier. destruct (in_list _ c); auto.
    - injection ST as <-. apply EXT. cbn. now rewrite upd_ne by auto.
    - injection ST as <-. destruct (Nat.eq_dec f0 f) as [-> | NE]; [ | apply EXT; cbn; now rewrite upd_ne by auto].
      apply ok_set; auto.
    - open_default ST. destruct (Nat.eq_dec f0 f) as [-> | NE]; [ | apply EXT; cbn; now rewrite upd_ne by auto].
      apply ok_set; auto.
    - injection ST as <-. destruct (Nat.eq_dec f0 f) as [-> | NE]; [ | apply EXT; cbn; now rewrite upd_ne by auto].
      apply ok_set; auto.
    - injection ST as <-. apply EXT. unfold getEClassifier. destruct (pcache _); auto.
    - destruct (getType p n w) as [[w1 r] | ] eqn:E; [ | discriminate]. injection ST as <-. apply getType_frame in E. destruct E as (_ & _ & E).
      apply EXT. now rewrite E.
    - destruct (getName e w) as [[w1 r] | ] eqn:E; [ | discriminate]. injection ST as <-. apply getName_frame in E. destruct E as (_ & _ & E & _).
      apply EXT. now rewrite E.
    - destruct (getFeatureDefault create f0 w) as [[w1 r] | ] eqn:E; [ | discriminate]. injection ST as <-.
      destruct (Nat.eq_dec f0 f) as [-> | NE]; [eapply ok_ask; eauto | ]. apply EXT.
      unfold getFeatureDefault in E.
      repeat match type of E with context [match ?x with _ => _ end] => destruct x eqn:?; try discriminate end;
      injection E as E'; try (subst w1); cbn; try (now rewrite upd_ne by auto); auto.
      replace w1 with (fst (typeDefault n w)) by (rewrite E'; reflexivity). now rewrite typeDefault_features.
    - injection ST as <-. apply EXT. now rewrite typeDefault_features.
    - injection ST as <-. unfold getReferenceType in *. destruct (freftype _); [apply EXT; reflexivity | ].
      destruct (ftype (features w f0)) eqn:FT; [ | apply EXT; reflexivity]. destruct (cdata _); [apply EXT; reflexivity | ].
      cbn. destruct (Nat.eq_dec f0 f) as [-> | NE]; [ | apply EXT; cbn; now rewrite upd_ne by auto].
      apply ok_set; auto.
    - injection ST as <-. apply EXT. unfold getClassifierID. destruct (cnumber _ =? -1); auto.
  Qed.
  Theorem feature_defaults f h w w' : fresh w -> Forall (keeps_type f (ftype (features w f))) h -> run h w = Some w' ->
    option_map snd (getFeatureDefault create f w') = default_of create w' f.
  Proof.
    intros F K R. pose proof (run_values _ _ _ R (fresh_values _ F)) as V.
    apply (default_value f (ftype (features w f))); [exact V | ].
    assert (H : default_ok f (ftype (features w f)) w).
    { split; [reflexivity | ]. intros c _. destruct F as (_ & _ & FF & _). destruct (FF f) as (E1 & E2 & _). rewrite E1, E2. repeat split; auto. discriminate. }
    set (t := ftype (features w f)) in *. clearbody t. clear F V. revert w H R. induction h as [ | o h IH]; cbn; intros w H R; [congruence | ].
    destruct (step o w) as [w1 | ] eqn:E; [ | discriminate]. inversion K; subst. apply (IH ltac:(assumption) w1); [eapply default_step; eauto | exact R].
  Qed.
End Meta.
