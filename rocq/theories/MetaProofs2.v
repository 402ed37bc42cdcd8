(** Proofs about MetaModel: types, default values, types of references, numbers. *)
From Verif Require Import Base Chars FloatModel LiteralModel MetaModel MetaSpec MetaProofs.

Section Meta.
  Context (create : nat -> datatype -> str -> option gval) (convert : nat -> datatype -> gval -> option str).
  Notation step := (step create convert).
  Notation run := (run create convert).

  Ltac cases_set := cbn; unfold upd; match goal with |- context [Nat.eqb ?a ?b] => destruct (Nat.eqb_spec a b); subst; cbn; auto end.
  Ltac open_default ST :=
    unfold setFeatureDefault in ST;
    repeat match type of ST with context [match ?x with _ => _ end] => destruct x eqn:?; try discriminate end;
    injection ST as <-.

  (** ** what a call changes *)
  Lemma step_names o w w' : keeps_document_names o -> step o w = Some w' ->
    forall c, document_name w' c = document_name w c.
  Proof.
    intros K ST d.
    assert (E : cname (classifiers w' d) = cname (classifiers w d) /\ cext (classifiers w' d) = cext (classifiers w d)).
    { destruct o; cbn in K; try (destruct K; fail); cbn in ST.
      - injection ST as <-. destruct (same_add p c w d). tauto.
      - injection ST as <-. destruct (same_remove p c w d). tauto.
      - injection ST as <-. auto.
      - injection ST as <-. auto.
      - injection ST as <-. cases_set. unfold instance_name. destruct (cdata _); auto.
      - injection ST as <-. cases_set.
      - injection ST as <-. cases_set.
      - injection ST as <-. auto.
      - injection ST as <-. auto.
      - open_default ST. auto.
      - injection ST as <-. auto.
      - injection ST as <-. unfold getEClassifier. destruct (pcache _); auto.
      - destruct (getType p n w) as [[w1 r] | ] eqn:E; [ | discriminate]. injection ST as <-. apply getType_frame in E. destruct E as (-> & _). auto.
      - destruct (getName e w) as [[w1 r] | ] eqn:E; [ | discriminate]. injection ST as <-. apply getName_frame in E. destruct E as (-> & _). auto.
      - destruct (getFeatureDefault create f w) as [[w1 r] | ] eqn:E; [ | discriminate]. injection ST as <-.
        apply getFeatureDefault_frame in E. destruct E as (_ & _ & B & _). destruct (with_value_eq _ _ (B d)) as (? & ? & _). auto.
      - injection ST as <-. destruct (with_value_eq _ _ (typeDefault_classifier c w d)) as (? & ? & _). auto.
      - injection ST as <-. unfold getReferenceType. destruct (freftype _); [auto | ]. destruct (ftype _); [ | auto]. destruct (cdata _); auto.
      - injection ST as <-. unfold getClassifierID. destruct (cnumber _ =? -1); [ | auto]. cases_set. }
    unfold document_name. destruct E as [-> ->]. reflexivity.
  Qed.
  Lemma remove_metadata p c w : metadata (removeClassifier p c w) = metadata w.
  Proof using. clear. unfold removeClassifier. destruct (in_list _ _); reflexivity. Qed.
  Lemma add_metadata p c w : metadata (addClassifier p c w) = metadata w.
  Proof using. clear create convert.
    clear. unfold addClassifier. destruct (in_list _ _); [reflexivity | ]. cbn.
    destruct (cpackage _); [apply remove_metadata | reflexivity].
  Qed.
  Lemma step_metadata o w w' : (forall p n, o <> AskType p n) -> (forall e, o <> AskName e) -> step o w = Some w' -> metadata w' = metadata w.
  Proof.
    intros N1 N2 ST. destruct o; cbn in ST; try (exfalso; eapply N1; reflexivity); try (exfalso; eapply N2; reflexivity);
    try (injection ST as <-; reflexivity).
    - injection ST as <-. apply add_metadata.
    - injection ST as <-. apply remove_metadata.
    - open_default ST. reflexivity.
    - injection ST as <-. unfold getEClassifier. destruct (pcache _); reflexivity.
    - destruct (getFeatureDefault create f w) as [[w1 r] | ] eqn:E; [ | discriminate]. injection ST as <-.
      apply getFeatureDefault_frame in E. tauto.
    - injection ST as <-. apply typeDefault_metadata.
    - injection ST as <-. unfold getReferenceType. destruct (freftype _); [auto | ]. destruct (ftype _); [ | auto]. destruct (cdata _); auto.
    - injection ST as <-. unfold getClassifierID. destruct (cnumber _ =? -1); reflexivity.
  Qed.

  Lemma in_list_true l c : in_list l c = true <-> In c l.
  Proof using. clear create convert.
    clear. unfold in_list. rewrite existsb_exists. split.
    - intros (x & A & B). apply Nat.eqb_eq in B. congruence.
    - intros H. exists c. split; [auto | apply Nat.eqb_refl].
  Qed.
  Lemma in_list_false l c : in_list l c = false <-> ~ In c l.
  Proof using. clear. rewrite <- in_list_true. destruct (in_list l c); split; congruence. Qed.

  Lemma step_list p M o w w' : only_receives p M o -> (forall c, In c (pclassifiers (packages w p)) -> M c) -> step o w = Some w' ->
    pclassifiers (packages w' p) = pclassifiers (packages w p)
    \/ (exists c, o = AddClassifier p c /\ M c /\ ~ In c (pclassifiers (packages w p))
                  /\ pclassifiers (packages w' p) = pclassifiers (packages w p) ++ [c]).
  Proof.
    intros O I ST.
    assert (RM : forall q c, (q = p -> ~ In c (pclassifiers (packages w p))) ->
                 pclassifiers (packages (removeClassifier q c w) p) = pclassifiers (packages w p)).
    { intros q c H. rewrite remove_classifiers. destruct (Nat.eqb_spec p q); [subst | reflexivity].
      rewrite (proj2 (in_list_false _ _)); [reflexivity | apply H; reflexivity]. }
    destruct o; cbn in ST; try (injection ST as <-; left; reflexivity).
    - injection ST as <-. cbn in O. unfold addClassifier. destruct (in_list (pclassifiers (packages w p0)) c) eqn:E; [auto | ].
      apply in_list_false in E.
      set (w1 := match cpackage (classifiers w c) with Some q => removeClassifier q c w | None => w end).
      assert (L : pclassifiers (packages w1 p) = pclassifiers (packages w p)).
      { subst w1. destruct (cpackage _); [ | reflexivity]. apply RM. intros ->. destruct (Nat.eq_dec p0 p) as [-> | NE]; [exact E | ].
        intros F. apply NE. apply O. auto. }
      cbn zeta. change (pclassifiers (packages (set_classifier c ?x ?y) p)) with (pclassifiers (packages y p)).
      rewrite on_list_classifiers. destruct (Nat.eqb_spec p p0) as [<- | NE]; [right | left; exact L].
      exists c. rewrite L. repeat split; auto. apply O. reflexivity.
    - injection ST as <-. cbn in O. left. apply RM. intros _ F. apply O. auto.
    - injection ST as <-. left. cases_set.
    - injection ST as <-. left. cases_set.
    - open_default ST. auto.
    - injection ST as <-. left. unfold getEClassifier. destruct (pcache _); [reflexivity | ]. cases_set.
    - destruct (getType p0 n w) as [[w1 r] | ] eqn:E; [ | discriminate]. injection ST as <-. apply getType_frame in E. destruct E as (_ & -> & _). auto.
    - destruct (getName e w) as [[w1 r] | ] eqn:E; [ | discriminate]. injection ST as <-. apply getName_frame in E. destruct E as (_ & -> & _). auto.
    - destruct (getFeatureDefault create f w) as [[w1 r] | ] eqn:E; [ | discriminate]. injection ST as <-.
      apply getFeatureDefault_frame in E. destruct E as (-> & _). auto.
    - injection ST as <-. rewrite typeDefault_packages. auto.
    - injection ST as <-. unfold getReferenceType. destruct (freftype _); [auto | ]. destruct (ftype _); [ | auto]. destruct (cdata _); auto.
    - injection ST as <-. unfold getClassifierID. destruct (cnumber _ =? -1); auto.
  Qed.

  (** ** types by their names in documents *)
  Definition names_ok (w : world) : Prop :=
    forall c, match metadata w (Cl c) with
              | None => True
              | Some (Named n) => n = uninitialized \/ n = document_name w c
              | Some (Types _) => False
              end.
  Definition map_ok (w : world) (l : list nat) (m : list (str * nat)) : Prop :=
    NoDup (map fst m) /\ forall n c, In (n, c) m -> In c l /\ document_name w c = n.
  Definition types_ok (p : nat) (M : nat -> Prop) (w : world) : Prop :=
    names_ok w
    /\ (forall q n, metadata w (Pk q) <> Some (Named n))
    /\ (forall m, metadata w (Pk p) = Some (Types (Some m)) -> map_ok w (pclassifiers (packages w p)) m)
    /\ (forall c, In c (pclassifiers (packages w p)) -> M c).

  Lemma getName_ok c w : names_ok w -> exists w', getName (Cl c) w = Some (w', document_name w c) /\ names_ok w'.
  Proof using. clear create convert.
    clear. intros H. pose proof (H c) as Hc. unfold getName.
    assert (G : names_ok (set_entry (Cl c) (Named (document_name w c)) w)).
    { intros d. cbn. destruct (Nat.eqb_spec d c); [subst; auto | apply H]. }
    destruct (metadata w (Cl c)) as [[n | t] | ].
    - exists (set_entry (Cl c) (Named (document_name w c)) w). split; [ | exact G].
      destruct Hc as [-> | ->].
      + rewrite str_eqb_refl. reflexivity.
      + destruct (str_eqb (document_name w c) uninitialized); reflexivity.
    - destruct Hc.
    - exists (set_entry (Cl c) (Named (document_name w c)) w). rewrite str_eqb_refl. auto.
  Qed.
  Lemma map_ok_put w l m n c : map_ok w l m -> In c l -> document_name w c = n -> map_ok w l (mput m n c).
  Proof using. clear create convert.
    clear. intros [A B] I E. split; [now apply mput_keys | ]. intros k d H.
    destruct (mput_in _ _ _ _ _ H) as [F | [-> ->]]; auto.
  Qed.
  Lemma map_ok_ext w w' l l' m : (forall c, document_name w' c = document_name w c) -> incl l l' -> map_ok w l m -> map_ok w' l' m.
  Proof using. clear. intros E I [A B]. split; [exact A | ]. intros n c H. destruct (B _ _ H). rewrite E. auto. Qed.
  Lemma typesLoop_ok name l0 : forall l m w, names_ok w -> incl l l0 -> map_ok w l0 m ->
    exists w' m' r, typesLoop l name m w = Some (w', m', r) /\ names_ok w' /\ map_ok w' l0 m'
      /\ match r with
         | Some c => In c l /\ document_name w c = name
         | None => forall c, In c l -> document_name w c <> name
         end.
  Proof using. clear create convert.
    induction l as [ | c l IH]; intros m w N I O; cbn [typesLoop].
    - exists w, m, None. split; [reflexivity | ]. split; [exact N | ]. split; [exact O | ]. intros c [].
    - destruct (getName_ok c w N) as (w1 & E & N1). rewrite E.
      destruct (getName_frame _ _ _ _ E) as (FC & _).
      assert (DN : forall d, document_name w1 d = document_name w d) by (intros d; unfold document_name; now rewrite FC).
      assert (O1 : map_ok w1 l0 (mput m (document_name w c) c)).
      { apply map_ok_put; [ | apply I; now left | apply DN]. eapply map_ok_ext; [exact DN | apply incl_refl | exact O]. }
      destruct (str_eqb (document_name w c) name) eqn:S.
      + apply str_eqb_eq in S. exists w1, (mput m (document_name w c) c), (Some c). split; [reflexivity | ]. split; [exact N1 | ]. split; [exact O1 | ]. split; [now left | exact S].
      + apply str_eqb_neq in S.
        destruct (IH (mput m (document_name w c) c) w1 N1 (fun x H => I x (or_intror H)) O1) as (w' & m' & r & -> & N' & O' & R).
        exists w', m', r. split; [reflexivity | ]. split; [exact N' | ]. split; [exact O' | ]. destruct r as [d | ].
        * rewrite DN in R. destruct R. split; [now right | auto].
        * intros d [<- | H]; [exact S | ]. rewrite <- DN. auto.
  Qed.
  Lemma full_map w l m name : map_ok w l m -> length m = length l -> mget m name = None ->
    forall c, In c l -> document_name w c <> name.
  Proof using. clear create convert.
    clear. intros [A B] L G c I E.
    assert (X : incl (map (document_name w) l) (map fst m)).
    { apply NoDup_length_incl; [exact A | rewrite !map_length; lia | ].
      intros n H. apply in_map_iff in H. destruct H as ([k d] & <- & H). cbn. destruct (B _ _ H) as [Y <-].
      now apply in_map. }
    assert (Y : In name (map fst m)) by (apply X; rewrite <- E; now apply in_map).
    apply in_map_iff in Y. destruct Y as ([k d] & <- & H). eapply mget_none; eauto.
  Qed.
  Lemma set_entry_eq e x w : metadata (set_entry e x w) e = Some x.
  Proof using. clear. cbn. destruct e; cbn; now rewrite Nat.eqb_refl. Qed.
  Lemma set_entry_ne e e' x w : e' <> e -> metadata (set_entry e x w) e' = metadata w e'.
  Proof using. clear create convert.
    clear. intros H. cbn. destruct (elem_eqb e' e) eqn:F; [ | reflexivity]. exfalso. apply H.
    destruct e, e'; cbn in F; try discriminate; apply Nat.eqb_eq in F; congruence.
  Qed.
  Lemma getType_ok q name p M w : types_ok p M w ->
    exists w' r, getType q name w = Some (w', r) /\ types_ok p M w' /\ (q = p -> typed w p name r).
  Proof using. clear create convert.
    intros (N & NP & MP & IM). unfold getType.
    set (t := match metadata w (Pk q) with Some (Types t) => t | _ => None end).
    assert ((match metadata w (Pk q) with None => Some None | Some (Types t) => Some t | Some (Named _) => None end) = Some t) as ->.
    { subst t. destruct (metadata w (Pk q)) as [[n | t] | ] eqn:E; try reflexivity. exfalso. eapply NP; eauto. }
    set (w0 := set_entry (Pk q) (Types t) w).
    assert (N0 : names_ok w0) by (intros c; apply (N c)).
    assert (NP0 : forall q' n, metadata w0 (Pk q') <> Some (Named n)).
    { intros q' n. destruct (Nat.eq_dec q' q) as [-> | NE]; [subst w0; rewrite set_entry_eq; discriminate | ].
      subst w0. rewrite set_entry_ne by congruence. apply NP. }
    assert (MT : forall m, t = Some m -> q = p -> map_ok w (pclassifiers (packages w p)) m).
    { intros m Et ->. subst t. destruct (metadata w (Pk p)) as [[n | [t | ]] | ] eqn:E; try discriminate. injection Et as <-. auto. }
    assert (MP0 : forall m, metadata w0 (Pk p) = Some (Types (Some m)) -> map_ok w0 (pclassifiers (packages w0 p)) m).
    { intros m. destruct (Nat.eq_dec p q) as [<- | NE].
      - subst w0. rewrite set_entry_eq. intros E. injection E as E. apply (MT m E eq_refl).
      - subst w0. rewrite set_entry_ne by congruence. apply MP. }
    assert (T0 : types_ok p M w0) by (split; [exact N0 | split; [exact NP0 | split; [exact MP0 | exact IM]]]).
    destruct (match t with Some m => mget m name | None => None end) as [c | ] eqn:G.
    - exists w0, (Some c). split; [reflexivity | ]. split; [exact T0 | ]. intros Q. split.
      + destruct t as [m | ]; [ | discriminate]. subst q. apply mget_in in G. destruct (MT m eq_refl eq_refl) as [_ B]. destruct (B _ _ G). auto.
      + destruct t as [m | ]; [ | discriminate]. subst q. apply mget_in in G. destruct (MT m eq_refl eq_refl) as [_ B]. destruct (B _ _ G). auto.
    - destruct (match t with Some m => Nat.eqb (length m) (length (pclassifiers (packages w q))) | None => false end) eqn:L.
      + exists w0, None. split; [reflexivity | ]. split; [exact T0 | ]. intros ->.
        destruct t as [m | ]; [ | discriminate]. apply Nat.eqb_eq in L. intros c. eapply full_map; eauto.
      + destruct (typesLoop_ok name (pclassifiers (packages w q)) (pclassifiers (packages w q)) [] w0 N0 (incl_refl _))
          as (w1 & m & r & E & N1 & O1 & R).
        { split; [constructor | ]. intros n c []. }
        rewrite E. destruct (typesLoop_frame _ _ _ _ _ _ _ E) as (FC & FP & _ & FM).
        exists (set_entry (Pk q) (Types (Some m)) w1), r. split; [reflexivity | ].
        assert (DN : forall c, document_name w1 c = document_name w0 c) by (intros c; unfold document_name; now rewrite FC).
        split.
        * split; [intros c; apply (N1 c) | ]. split.
          { intros q' n. destruct (Nat.eq_dec q' q) as [-> | NE]; [rewrite set_entry_eq; discriminate | ].
            rewrite set_entry_ne by congruence. rewrite FM. apply NP0. }
          split.
          { intros m'. destruct (Nat.eq_dec p q) as [<- | NE].
            - rewrite set_entry_eq. intros H. injection H as <-. cbn. rewrite FP. exact O1.
            - rewrite set_entry_ne by congruence. rewrite FM. intros H. cbn. rewrite FP.
              eapply map_ok_ext; [exact DN | apply incl_refl | apply MP0; exact H]. }
          intros c. cbn. rewrite FP. apply IM.
        * intros ->. destruct r as [c | ]; exact R.
  Qed.

  Lemma types_ok_ext p M w w' : metadata w' = metadata w -> (forall c, document_name w' c = document_name w c) ->
    (pclassifiers (packages w' p) = pclassifiers (packages w p)
     \/ (exists c, M c /\ pclassifiers (packages w' p) = pclassifiers (packages w p) ++ [c])) ->
    types_ok p M w -> types_ok p M w'.
  Proof using. clear create convert.
    clear. intros EM DN L (N & NP & MP & IM).
    assert (IL : incl (pclassifiers (packages w p)) (pclassifiers (packages w' p))).
    { destruct L as [-> | (c & _ & ->)]; [apply incl_refl | apply incl_appl, incl_refl]. }
    split; [ | split; [ | split]].
    - intros c. rewrite EM, DN. apply N.
    - rewrite EM. exact NP.
    - intros m. rewrite EM. intros H. eapply map_ok_ext; [exact DN | exact IL | auto].
    - destruct L as [-> | (c & HM & ->)]; [exact IM | ]. intros d H. apply in_app_or in H. destruct H as [H | [<- | []]]; auto.
  Qed.
  Lemma types_step p M o w w' : only_receives p M o -> keeps_document_names o -> step o w = Some w' -> types_ok p M w -> types_ok p M w'.
  Proof.
    intros O K ST H.
    assert (GEN : (forall q n, o <> AskType q n) -> (forall e, o <> AskName e) -> types_ok p M w').
    { intros N1 N2. eapply types_ok_ext; [eapply step_metadata; eauto | eapply step_names; eauto | | exact H].
      destruct (step_list p M o w w' O (proj2 (proj2 (proj2 H))) ST) as [E | (c & _ & HM & _ & E)]; eauto. }
    destruct o; try (apply GEN; intros; discriminate).
    - cbn in ST. destruct (getType_ok p0 n p M w H) as (w1 & r & E & T & _). rewrite E in ST. injection ST as <-. exact T.
    - cbn in ST. destruct e as [c | q]; [ | destruct K].
      destruct (getName_ok c w (proj1 H)) as (w1 & E & N1). rewrite E in ST. injection ST as <-.
      destruct (getName_frame _ _ _ _ E) as (FC & FP & _ & _ & FM). destruct H as (N & NP & MP & IM).
      split; [exact N1 | ]. split; [intros q m; rewrite FM by discriminate; apply NP | ]. split.
      + intros m. rewrite FM by discriminate. intros X. rewrite FP. eapply map_ok_ext; [ | apply incl_refl | apply MP; exact X].
        intros d. unfold document_name. now rewrite FC.
      + rewrite FP. exact IM.
  Qed.
  Lemma types_run p M h w w' : Forall (only_receives p M) h -> Forall keeps_document_names h -> run h w = Some w' -> types_ok p M w -> types_ok p M w'.
  Proof.
    revert w. induction h as [ | o h IH]; cbn; intros w O K R H; [congruence | ].
    destruct (step o w) as [w1 | ] eqn:E; [ | discriminate]. inversion K; inversion O; subst.
    eapply IH; eauto. eapply types_step; eauto.
  Qed.
  Theorem types_found p (M : nat -> Prop) h w w' n : fresh w -> (forall c, In c (pclassifiers (packages w p)) -> M c) ->
    Forall (only_receives p M) h -> Forall keeps_document_names h -> run h w = Some w' ->
    exists w'' r, getType p n w' = Some (w'', r) /\ typed w' p n r.
  Proof.
    intros (_ & _ & _ & F) IM O K R.
    assert (T : types_ok p M w).
    { split; [intros c; now rewrite F | ]. split; [intros q m; rewrite F; discriminate | ]. split; [intros m; rewrite F; discriminate | exact IM]. }
    destruct (getType_ok p n p M w' (types_run _ _ _ _ _ O K R T)) as (w'' & r & E & _ & H). eauto.
  Qed.

  (** ** numbers of classifiers *)
  Lemma index_of_app l l' c i : In c l -> index_of (l ++ l') c i = index_of l c i.
  Proof using. clear create convert.
    clear. revert i. induction l as [ | d l IH]; intros i H; [destruct H | ]. cbn. destruct (Nat.eqb_spec d c); [reflexivity | ].
    destruct H; [congruence | auto].
  Qed.
  Lemma index_of_nth l c i : 0 <= i -> In c l -> i <= index_of l c i /\ nth_error l (Z.to_nat (index_of l c i - i)) = Some c.
  Proof using. clear create convert.
    clear. revert i. induction l as [ | d l IH]; intros i I H; [destruct H | ]. cbn. destruct (Nat.eqb_spec d c).
    - subst. replace (i - i) with 0 by lia. split; [lia | reflexivity].
    - destruct H; [congruence | ]. destruct (IH (i + 1) ltac:(lia) H) as [A B]. split; [lia | ].
      replace (Z.to_nat (index_of l c (i + 1) - i)) with (S (Z.to_nat (index_of l c (i + 1) - (i + 1)))) by lia. exact B.
  Qed.
  Definition number_ok (p : nat) (M : nat -> Prop) (w : world) : Prop :=
    (forall c, In c (pclassifiers (packages w p)) -> M c)
    /\ (forall c, M c -> (In c (pclassifiers (packages w p)) /\ cpackage (classifiers w c) = Some p
                          /\ (cnumber (classifiers w c) = -1 \/ cnumber (classifiers w c) = index_of (pclassifiers (packages w p)) c 0))
                         \/ (~ In c (pclassifiers (packages w p)) /\ cpackage (classifiers w c) = None /\ cnumber (classifiers w c) = -1)).
  Lemma remove_classifier_other q c w d : d <> c -> classifiers (removeClassifier q c w) d = classifiers w d.
  Proof using. clear. intros H. unfold removeClassifier. destruct (in_list _ c); [ | reflexivity]. cbn. now apply upd_ne. Qed.
  Lemma add_classifier_other q c w d : d <> c -> classifiers (addClassifier q c w) d = classifiers w d.
  Proof using. clear create convert.
    clear. intros H. unfold addClassifier. destruct (in_list _ c); [reflexivity | ]. cbn. rewrite upd_ne by auto.
    destruct (cpackage _); [now apply remove_classifier_other | reflexivity].
  Qed.
  Lemma step_placed o w w' c :
    (forall q, o <> AddClassifier q c) -> (forall q, o <> RemoveClassifier q c) -> step o w = Some w' ->
    cpackage (classifiers w' c) = cpackage (classifiers w c)
    /\ (o <> AskNumber c -> cnumber (classifiers w' c) = cnumber (classifiers w c)).
  Proof.
    intros N1 N2 ST. destruct o; cbn in ST; try (injection ST as <-; auto; fail).
    - injection ST as <-. rewrite add_classifier_other by (intros ->; eapply N1; reflexivity). auto.
    - injection ST as <-. rewrite remove_classifier_other by (intros ->; eapply N2; reflexivity). auto.
    - injection ST as <-. cases_set.
    - injection ST as <-. cases_set.
    - injection ST as <-. cases_set. unfold instance_name. destruct (cdata _); auto.
    - injection ST as <-. cases_set.
    - injection ST as <-. cases_set.
    - open_default ST. auto.
    - injection ST as <-. unfold getEClassifier. destruct (pcache _); auto.
    - destruct (getType p n w) as [[w1 r] | ] eqn:E; [ | discriminate]. injection ST as <-. apply getType_frame in E. destruct E as (-> & _). auto.
    - destruct (getName e w) as [[w1 r] | ] eqn:E; [ | discriminate]. injection ST as <-. apply getName_frame in E. destruct E as (-> & _). auto.
    - destruct (getFeatureDefault create f w) as [[w1 r] | ] eqn:E; [ | discriminate]. injection ST as <-.
      apply getFeatureDefault_frame in E. destruct E as (_ & _ & B & _). destruct (with_value_eq _ _ (B c)) as (_ & _ & _ & _ & ? & ?). auto.
    - injection ST as <-. destruct (with_value_eq _ _ (typeDefault_classifier c0 w c)) as (_ & _ & _ & _ & ? & ?). auto.
    - injection ST as <-. unfold getReferenceType. destruct (freftype _); [auto | ]. destruct (ftype _); [ | auto]. destruct (cdata _); auto.
    - injection ST as <-. unfold getClassifierID. destruct (cnumber _ =? -1); [ | auto]. cbn. unfold upd.
      destruct (Nat.eqb_spec c c0); [subst | auto]. cbn. split; [reflexivity | congruence].
  Qed.
  Lemma number_ask c p M w : number_ok p M w -> number_ok p M (fst (getClassifierID c w)).
  Proof using. clear create convert.
    clear. intros [I H]. unfold getClassifierID. destruct (cnumber (classifiers w c) =? -1) eqn:E; [ | split; auto]. cbn.
    split; [exact I | ]. intros d Md. cbn. unfold upd. destruct (Nat.eqb_spec d c); [subst d | apply H; auto]. cbn.
    destruct (H c Md) as [(A & B & C) | (A & B & C)].
    - left. rewrite B. auto.
    - right. rewrite B. auto.
  Qed.
  Lemma number_step p M o w w' : only_receives p M o -> step o w = Some w' -> number_ok p M w -> number_ok p M w'.
  Proof.
    intros O ST H. pose proof H as [I HM].
    destruct (step_list p M o w w' O I ST) as [L | (c & -> & Mc & NI & L)].
    - destruct o as [ | | | | | | | | | | | | | | | | | | | k].
      20: { cbn in ST. injection ST as <-. now apply number_ask. }
      1: { split; [rewrite L; exact I | ]. intros d Md. rewrite L. destruct (Nat.eq_dec d c) as [-> | NE].
           - cbn in O. apply O in Md. subst p0. cbn in ST. injection ST as <-. unfold addClassifier in *.
             destruct (in_list (pclassifiers (packages w p)) c) eqn:E; [apply HM, O; reflexivity | ].
             exfalso. revert L. cbn zeta. change (pclassifiers (packages (set_classifier c ?x ?y) p)) with (pclassifiers (packages y p)).
             rewrite on_list_classifiers, Nat.eqb_refl. apply in_list_false in E.
             assert (pclassifiers (packages (match cpackage (classifiers w c) with Some q => removeClassifier q c w | None => w end) p) = pclassifiers (packages w p)) as ->.
             { destruct (cpackage _); [ | reflexivity]. rewrite remove_classifiers. destruct (Nat.eqb_spec p n); [subst | reflexivity].
               rewrite (proj2 (in_list_false _ _)); auto. }
             intros F. apply (f_equal (@length nat)) in F. rewrite app_length in F. cbn in F. lia.
           - cbn in ST. injection ST as <-. rewrite add_classifier_other by auto. apply HM. auto. }
      1: { split; [rewrite L; exact I | ]. intros d Md. rewrite L. cbn in O. assert (NE : d <> c) by (intros ->; auto).
           cbn in ST. injection ST as <-. rewrite remove_classifier_other by auto. apply HM. auto. }
      all: split; [rewrite L; exact I | ]; intros d Md; rewrite L;
        match goal with S : step ?o _ = Some _ |- _ => destruct (step_placed o w w' d ltac:(intros; discriminate) ltac:(intros; discriminate) S) as [-> E] end;
        rewrite E by discriminate; apply HM; auto.
    - split.
      + rewrite L. intros d F. apply in_app_or in F. destruct F as [F | [<- | []]]; auto.
      + intros d Md. rewrite L. cbn in ST. injection ST as <-. destruct (Nat.eq_dec d c) as [-> | NE].
        * left. split; [apply in_or_app; right; now left | ]. unfold addClassifier.
          rewrite (proj2 (in_list_false _ _) NI). cbn zeta. cbn [classifiers set_classifier]. rewrite upd_eq. cbn.
          destruct (HM c Mc) as [(A & _) | (_ & B & C)]; [contradiction | ]. rewrite B. cbn. auto.
        * rewrite add_classifier_other by auto. destruct (HM d Md) as [(A & B & C) | (A & B & C)].
          -- left. rewrite index_of_app by auto. split; [apply in_or_app; auto | auto].
          -- right. split; [ | auto]. intros F. apply in_app_or in F. destruct F as [F | [F | []]]; congruence.
  Qed.
  Lemma number_run p M h w w' : Forall (only_receives p M) h -> run h w = Some w' -> number_ok p M w -> number_ok p M w'.
  Proof.
    revert w. induction h as [ | o h IH]; cbn; intros w O R H; [congruence | ].
    destruct (step o w) as [w1 | ] eqn:E; [ | discriminate]. inversion O; subst. eapply IH; eauto. eapply number_step; eauto.
  Qed.
  Theorem numbers p (M : nat -> Prop) h w w' c : fresh w -> consistent w ->
    (forall d, In d (pclassifiers (packages w p)) -> M d) -> (forall d q, M d -> cpackage (classifiers w d) = Some q -> q = p) ->
    Forall (only_receives p M) h -> run h w = Some w' -> M c ->
    let i := snd (getClassifierID c w') in
    (0 <= i /\ nth_error (pclassifiers (packages w' p)) (Z.to_nat i) = Some c) \/ (i = -1 /\ ~ In c (pclassifiers (packages w' p))).
  Proof.
    intros (F & _) (_ & CO) IM MP O R Mc.
    assert (N : number_ok p M w).
    { split; [exact IM | ]. intros d Md. destruct (F d) as (_ & _ & E). destruct (cpackage (classifiers w d)) as [q | ] eqn:P.
      - assert (q = p) by (eapply MP; eauto). subst q. left. split; [now apply CO | auto].
      - right. repeat split; auto. intros X. apply CO in X. congruence. }
    pose proof (number_run _ _ _ _ _ O R N) as [_ H]. cbn zeta. unfold getClassifierID.
    destruct (H c Mc) as [(A & B & C) | (A & B & C)].
    - left. destruct (index_of_nth _ c 0 ltac:(lia) A) as [X Y]. rewrite Z.sub_0_r in Y.
      destruct (cnumber (classifiers w' c) =? -1) eqn:E.
      + rewrite B. cbn. auto.
      + destruct C as [C | C]; [lia | ]. cbn. rewrite C. auto.
    - right. rewrite C, B. cbn. auto.
  Qed.

  (** ** types of references *)
  Lemma step_class o w w' c : step o w = Some w' -> cdata (classifiers w c) = None -> cdata (classifiers w' c) = None.
  Proof.
    intros ST H. destruct o; cbn in ST; try (injection ST as <-; auto; fail).
    - injection ST as <-. destruct (same_add p c0 w c) as (_ & _ & -> & _). exact H.
    - injection ST as <-. destruct (same_remove p c0 w c) as (_ & _ & -> & _). exact H.
    - injection ST as <-. cases_set.
    - injection ST as <-. cases_set.
    - injection ST as <-. cases_set. unfold instance_name. rewrite H. auto.
    - injection ST as <-. cases_set.
    - injection ST as <-. cases_set.
    - open_default ST. auto.
    - injection ST as <-. unfold getEClassifier. destruct (pcache _); auto.
    - destruct (getType p n w) as [[w1 r] | ] eqn:E; [ | discriminate]. injection ST as <-. apply getType_frame in E. destruct E as (-> & _). auto.
    - destruct (getName e w) as [[w1 r] | ] eqn:E; [ | discriminate]. injection ST as <-. apply getName_frame in E. destruct E as (-> & _). auto.
    - destruct (getFeatureDefault create f w) as [[w1 r] | ] eqn:E; [ | discriminate]. injection ST as <-.
      apply getFeatureDefault_frame in E. destruct E as (_ & _ & B & _). destruct (with_value_eq _ _ (B c)) as (_ & _ & -> & _). auto.
    - injection ST as <-. destruct (with_value_eq _ _ (typeDefault_classifier c0 w c)) as (_ & _ & -> & _). auto.
    - injection ST as <-. unfold getReferenceType. destruct (freftype _); [auto | ]. destruct (ftype _); [ | auto]. destruct (cdata (classifiers w n)); auto.
    - injection ST as <-. unfold getClassifierID. destruct (cnumber _ =? -1); [ | auto]. cases_set.
  Qed.
  Lemma step_type o w w' f : step o w = Some w' -> (forall t, o <> SetType f t) -> ftype (features w' f) = ftype (features w f).
  Proof.
    intros ST N. destruct o; cbn in ST; try (injection ST as <-; auto; fail).
    - injection ST as <-. unfold addClassifier. destruct (in_list _ c); [auto | ]. cbn.
      destruct (cpackage _); [ | auto]. unfold removeClassifier. destruct (in_list _ c); auto.
    - injection ST as <-. unfold removeClassifier. destruct (in_list _ c); auto.
    - injection ST as <-. cbn. rewrite upd_ne; [auto | ]. intros ->. eapply N; reflexivity.
    - injection ST as <-. cases_set.
    - open_default ST. cases_set.
    - injection ST as <-. cases_set.
    - injection ST as <-. unfold getEClassifier. destruct (pcache _); auto.
    - destruct (getType p n w) as [[w1 r] | ] eqn:E; [ | discriminate]. injection ST as <-. apply getType_frame in E. destruct E as (_ & _ & ->). auto.
    - destruct (getName e w) as [[w1 r] | ] eqn:E; [ | discriminate]. injection ST as <-. apply getName_frame in E. destruct E as (_ & _ & -> & _). auto.
    - destruct (getFeatureDefault create f0 w) as [[w1 r] | ] eqn:E; [ | discriminate]. injection ST as <-.
      apply getFeatureDefault_frame in E. destruct E as (_ & _ & _ & B). apply B.
    - injection ST as <-. rewrite typeDefault_features. auto.
    - injection ST as <-. unfold getReferenceType. destruct (freftype _); [auto | ]. destruct (ftype (features w f0)) as [n | ] eqn:?; [ | auto]. destruct (cdata (classifiers w n)); [auto | ]. cases_set.
    - injection ST as <-. unfold getClassifierID. destruct (cnumber _ =? -1); auto.
  Qed.
  Definition reference_ok (f c : nat) (w : world) : Prop :=
    (ftype (features w f) = None \/ ftype (features w f) = Some c)
    /\ (freftype (features w f) = None
        \/ (freftype (features w f) = Some c /\ ftype (features w f) = Some c /\ cdata (classifiers w c) = None)).
  Lemma step_reftype o w w' f : step o w = Some w' -> o <> AskReferenceType f -> freftype (features w' f) = freftype (features w f).
  Proof.
    intros ST N. destruct o; cbn in ST; try (injection ST as <-; auto; fail).
    - injection ST as <-. unfold addClassifier. destruct (in_list _ c); [auto | ]. cbn.
      destruct (cpackage _); [ | auto]. unfold removeClassifier. destruct (in_list _ c); auto.
    - injection ST as <-. unfold removeClassifier. destruct (in_list _ c); auto.
    - injection ST as <-. cases_set.
    - injection ST as <-. cases_set.
    - open_default ST. cases_set.
    - injection ST as <-. cases_set.
    - injection ST as <-. unfold getEClassifier. destruct (pcache _); auto.
    - destruct (getType p n w) as [[w1 r] | ] eqn:E; [ | discriminate]. injection ST as <-. apply getType_frame in E. destruct E as (_ & _ & ->). auto.
    - destruct (getName e w) as [[w1 r] | ] eqn:E; [ | discriminate]. injection ST as <-. apply getName_frame in E. destruct E as (_ & _ & -> & _). auto.
    - destruct (getFeatureDefault create f0 w) as [[w1 r] | ] eqn:E; [ | discriminate]. injection ST as <-.
      apply getFeatureDefault_frame in E. destruct E as (_ & _ & _ & B). apply B.
    - injection ST as <-. rewrite typeDefault_features. auto.
    - injection ST as <-. unfold getReferenceType. destruct (freftype (features w f0)) eqn:?; [auto | ]. destruct (ftype (features w f0)) as [k | ] eqn:?; [ | auto]. destruct (cdata (classifiers w k)); [auto | ].
      cbn. rewrite upd_ne; [auto | ]. congruence.
    - injection ST as <-. unfold getClassifierID. destruct (cnumber _ =? -1); auto.
  Qed.
  Lemma reference_step f c o w w' : sets_only f c o -> step o w = Some w' -> reference_ok f c w -> reference_ok f c w'.
  Proof.
    intros S ST [A B].
    assert (T : (ftype (features w' f) = None \/ ftype (features w' f) = Some c)
                /\ (ftype (features w f) = Some c -> ftype (features w' f) = Some c)).
    { destruct o; try (rewrite (step_type _ _ _ f ST) by (intros; discriminate); auto; fail).
      destruct (Nat.eq_dec f0 f) as [-> | NE].
      - cbn in S. rewrite (S eq_refl) in ST. cbn in ST. injection ST as <-. cbn. rewrite upd_eq. cbn. auto.
      - rewrite (step_type _ _ _ f ST) by congruence. auto. }
    destruct T as [T1 T2]. split; [exact T1 | ].
    assert (D : {o = AskReferenceType f} + {o <> AskReferenceType f}).
    { destruct o; try (right; discriminate). destruct (Nat.eq_dec f0 f); [left; congruence | right; congruence]. }
    destruct D as [-> | NE].
    - cbn in ST. injection ST as <-. unfold getReferenceType. destruct (freftype (features w f)) as [x | ] eqn:R.
      + destruct B as [B | (B & C & D)]; [discriminate | ]. cbn. rewrite R. right. rewrite B. auto.
      + destruct (ftype (features w f)) as [x | ] eqn:FT; [ | cbn; auto].
        destruct A as [A | A]; [discriminate | ]. injection A as ->.
        destruct (cdata (classifiers w c)) eqn:CD; [cbn; auto | ]. cbn. rewrite upd_eq. cbn. auto.
    - rewrite (step_reftype _ _ _ f ST NE). destruct B as [B | (B & C & D)]; [auto | ].
      right. repeat split; auto. eapply step_class; eauto.
  Qed.
  Lemma reference_run f c h w w' : Forall (sets_only f c) h -> run h w = Some w' -> reference_ok f c w -> reference_ok f c w'.
  Proof.
    revert w. induction h as [ | o h IH]; cbn; intros w O R H; [congruence | ].
    destruct (step o w) as [w1 | ] eqn:E; [ | discriminate]. inversion O; subst. eapply IH; eauto. eapply reference_step; eauto.
  Qed.
  Theorem reference_types f c h w w' : fresh w -> (ftype (features w f) = None \/ ftype (features w f) = Some c) ->
    Forall (sets_only f c) h -> run h w = Some w' -> snd (getReferenceType f w') = class_of w' f.
  Proof.
    intros (_ & _ & F & _) T O R.
    assert (H : reference_ok f c w) by (split; [exact T | left; apply F]).
    destruct (reference_run _ _ _ _ _ O R H) as [A B]. unfold getReferenceType, class_of.
    destruct B as [-> | (-> & -> & ->)]; [ | reflexivity].
    destruct (ftype (features w' f)) as [k | ]; [ | reflexivity]. destruct (cdata (classifiers w' k)); reflexivity.
  Qed.
End Meta.
