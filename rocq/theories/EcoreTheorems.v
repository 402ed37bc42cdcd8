(** Theorems about the generated classes of Ecore, C130 to C141. *)
From Verif Require Import Base ListModel ListSpec GraphModel GraphSpec GraphInv GraphSteps
  EcoreSyntax EcoreTables EcoreModel EcoreSpec EcoreChecks EcoreProofs.
Open Scope string_scope.
Open Scope Z_scope.

(** ** C130: the sources of each class agree with the description of Ecore *)
Theorem C130_sources_agree :
  (forall c, (c < class_count)%nat -> class_agrees c)
  /\ (forall classOf, wf_metamodel (ecore classOf))
  /\ (forall c f l, In f (featuresOf c) -> get_of c (featureID (ecore_info f)) = Found (GetList l) -> list_agrees f l).
Proof.
  split; [exact class_check|]. split; [exact wf_ecore|]. intros c f l Hf Hg.
  assert (Hc : (c < class_count)%nat).
  { destruct (le_lt_dec class_count c) as [Hge|Hlt]; [|exact Hlt]. unfold featuresOf in Hf. rewrite nth_overflow in Hf; [destruct Hf|].
    unfold feature_table. now rewrite map_length, seq_length. }
  destruct (class_check c Hc) as (Hs & _). assert (Hin : In f (features_at c)) by (unfold features_at; rewrite Hs; exact Hf).
  pose proof (everywhere_at _ _ _ proxies_checked Hin) as H. unfold check_proxies in H. change (featureID (ecore_info f)) with (i_id f) in Hg.
  rewrite Hg in H. apply andb_prop in H as [_ H]. destruct (list_ok_spec (fun _ => 0%nat) f l H) as (H1 & H2 & H3 & H4 & H5 & H6).
  split; [exact H1|]. split; [exact H2|]. split; [exact H3|]. rewrite H5, H4.
  unfold i_linked, i_bidirectional. change (opposite (ecore_info f)) with (i_opp f). change (containment (ecore_info f)) with (i_cont f).
  change (GraphModel.f_opp (ecore (fun _ => 0%nat)) f) with (i_opp f) in H6.
  destruct (i_opp f) as [g|]; cbn [orb].
  - split; [split; [left; discriminate|reflexivity]|]. split; [reflexivity|]. now apply H6.
  - split; [|reflexivity]. split; [now right|]. intros [H'|H']; [now destruct H'|exact H'].
Qed.
Print Assumptions C130_sources_agree.

Definition feature_named (g : string) : feature := match accessor g with Some f => f | None => feature_count end.
Definition eStructuralFeatures := feature_named "GetEClass_EStructuralFeatures".
Definition eContainingClass := feature_named "GetEStructuralFeature_EContainingClass".
Definition eClassifiers := feature_named "GetEPackage_EClassifiers".
Definition ePackage := feature_named "GetEClassifier_EPackage".
Definition eSuperTypes := feature_named "GetEClass_ESuperTypes".
Definition eFactoryInstance := feature_named "GetEPackage_EFactoryInstance".

Example C130_example :
  In (cEClass, "eStructuralFeatures", featureID (ecore_info eStructuralFeatures)) constants
  /\ get_of cEClass (featureID (ecore_info eStructuralFeatures))
     = Found (GetList (LA eStructuralFeatures 10 16 true true true false false))
  /\ opposite (ecore_info eStructuralFeatures) = Some eContainingClass
  /\ featureID (ecore_info eContainingClass) = 16.
Proof. vm_compute. intuition. Qed.

(** a world with objects of several classes *)
Definition world (o : obj) : nat :=
  nth o [cEClass; cEClass; cEAttribute; cEPackage; cEFactory; cEAnnotation; cEAnnotation; cEStringToStringMapEntry;
         cEReference; cEDataType; cEEnumLiteral] cEClass.

(** ** C131: the list of a many-valued reference resolves proxies iff the reference does *)
Definition proxies_agree (c : nat) (f : feature) : Prop :=
  forall l, get_of c (featureID (ecore_info f)) = Found (GetList l) -> l_proxies l = resolveProxies (ecore_info f).

Theorem C131_resolving_lists_refuted :
  exists c f, In f (featuresOf c) /\ ~ proxies_agree c f.
Proof.
  exists cEPackage, eClassifiers. split; [vm_compute; tauto|]. intro H.
  specialize (H (LA eClassifiers 5 6 true true true false false)).
  assert (E : get_of cEPackage (featureID (ecore_info eClassifiers)) = Found (GetList (LA eClassifiers 5 6 true true true false false)))
    by (vm_compute; reflexivity).
  specialize (H E). vm_compute in H. discriminate H.
Qed.
Print Assumptions C131_resolving_lists_refuted.

(** all others do; missing: the classifiers and subpackages of a package *)
Theorem C131_resolving_lists_partial : forall c f, (c < class_count)%nat -> In f (featuresOf c) ->
  feature_name f <> "eClassifiers" -> feature_name f <> "eSubPackages" -> proxies_agree c f.
Proof.
  intros c f Hc Hf N1 N2 l Hg. destruct (class_check c Hc) as (Hs & _).
  assert (Hin : In f (features_at c)) by (unfold features_at; rewrite Hs; exact Hf).
  pose proof (everywhere_at _ _ _ proxies_checked Hin) as H. unfold check_proxies in H. change (featureID (ecore_info f)) with (i_id f) in Hg.
  rewrite Hg in H. apply andb_prop in H as [H _]. apply Bool.eqb_prop in H.
  assert (E : existsb (String.eqb (feature_name f)) ["eClassifiers"; "eSubPackages"] = false).
  { cbn [existsb]. apply String.eqb_neq in N1, N2. now rewrite N1, N2. }
  rewrite E in H. rewrite H. apply andb_true_r.
Qed.
Print Assumptions C131_resolving_lists_partial.
Example C131_example : resolveProxies (ecore_info eSuperTypes) = true
  /\ exists l, get_of cEClass (featureID (ecore_info eSuperTypes)) = Found (GetList l) /\ l_proxies l = true.
Proof. split; [vm_compute; reflexivity|]. eexists. split; vm_compute; reflexivity. Qed.

(** ** C132: calls on generated objects do what the same calls do on dynamic objects *)
Theorem C132_generated_as_dynamic : forall classOf s p,
  gen_reachable classOf s -> gen_legal classOf s p ->
  reachable (ecore classOf) s
  /\ (forall n, genStep classOf (S n) s p = Some (grun (ecore classOf) s (dynamic_calls classOf p))).
Proof.
  intros classOf s p Hs L. destruct (gen_reachable_ok classOf s Hs) as [Hw Hr]. split; [exact Hr|]. intro n.
  destruct (reachable_ok _ (wf_ecore classOf) s Hr) as [G R]. now apply genStep_eq.
Qed.
Print Assumptions C132_generated_as_dynamic.

(** an attribute is put in a class, then in another; a factory is given a package *)
Definition C132_calls : list call :=
  [CList 0%nat eStructuralFeatures (Add 2%nat);
   CSet 1%nat eStructuralFeatures (VList (Ext [8%nat; 2%nat]));
   CSet 3%nat eFactoryInstance (VObj (Some 4%nat));
   CSet 4%nat (feature_named "GetEFactory_EPackage") (VObj None)].
Fixpoint gen_run (s : state) (ps : list call) : option state :=
  match ps with
  | [] => Some s
  | p :: ps' => match genStep world 1 s p with Some (Some s') => gen_run s' ps' | _ => None end
  end.
Example C132_example : exists s, gen_run init C132_calls = Some s
  /\ slot s 0%nat eStructuralFeatures = [] /\ slot s 1%nat eStructuralFeatures = [8%nat; 2%nat]
  /\ container s 2%nat = Some 1%nat /\ slot s 3%nat eFactoryInstance = [] /\ container s 4%nat = None.
Proof. eexists. split; [vm_compute; reflexivity|]. vm_compute. auto. Qed.

(** ** C133: containment, opposites and resources of generated objects *)
Theorem C133_generated_graph : forall classOf s, gen_reachable classOf s ->
  let M := ecore classOf in
  (forall x c f, In f (features M c) -> f_cont M f = true -> f <> details ->
     (gen_holds classOf s c f x <-> contained_in M s x c f))
  /\ (forall x c, container s x = Some c ->
        exists f, In f (features M c) /\ f_cont M f = true /\ f <> details /\ gen_holds classOf s c f x)
  /\ (forall r q a b, f_opp M r = Some q -> In r (features M a) -> In q (features M b) ->
        (gen_holds classOf s a r b <-> gen_holds classOf s b q a))
  /\ resources_agree s.
Proof.
  intros classOf s Hs M. destruct (gen_reachable_ok classOf s Hs) as [Hw Hr].
  pose proof (wf_ecore classOf) as W. destruct (reachable_ok _ W s Hr) as [G R].
  destruct (agrees_of_inv M W s G) as (A1 & A2 & _).
  assert (Hrem : forall f, f_cont M f = true -> f <> details -> removable f = true).
  { intros f Hc Hd. apply linked_removable.
    - split; [exact (containment_reference f Hc)|exact Hd].
    - unfold i_linked. change (i_cont f) with (f_cont M f). rewrite Hc. apply orb_true_r. }
  split; [|split; [|split; [|exact (resources_of_inv M s R)]]].
  - intros x c f Hf Hc Hd. rewrite (gen_holds_linked classOf s c f x Hf (Hrem f Hc Hd)). now apply A1.
  - intros x c E. destruct (A2 x c E) as (f & Hc & Hin). apply (A1 x c f Hc) in Hin as Hh.
    assert (Hf : In f (features M c)) by (destruct Hh as (l & El & _); exact (eGet_inv M s c f l El)).
    assert (Hd : f <> details).
    { intro Ed. apply (holds_slot M W s c f x (cont_not_container M W f Hc) G) in Hh. rewrite Ed, (proj2 Hw) in Hh. destruct Hh. }
    exists f. split; [exact Hf|]. split; [exact Hc|]. split; [exact Hd|].
    now apply (gen_holds_linked classOf s c f x Hf (Hrem f Hc Hd)).
  - intros r q a b E Ha Hb. destruct (wf_opp M W r q E) as [E' _].
    rewrite (gen_holds_linked classOf s a r b Ha), (gen_holds_linked classOf s b q a Hb).
    + now apply (opposites_of_inv M W s G).
    + exact (bidirectional_removable (classOf b) q Hb (bid_some classOf _ _ E')).
    + exact (bidirectional_removable (classOf a) r Ha (bid_some classOf _ _ E)).
Qed.
Print Assumptions C133_generated_graph.

(** the state a call leads to, if it returns one *)
Definition after (s : state) (p : call) : state :=
  match genStep world 1 s p with Some (Some s') => s' | _ => s end.
Definition returns (s : state) (p : call) : bool := match genStep world 1 s p with Some (Some _) => true | _ => false end.
Lemma after_spec s p : returns s p = true -> genStep world 1 s p = Some (Some (after s p)).
Proof. unfold returns, after. destruct (genStep world 1 s p) as [[s'|]|]; [reflexivity|discriminate..]. Qed.

(** ** C134: an entry of an annotation's details is in the details of one annotation *)
Theorem C134_entry_of_one_annotation_refuted : exists classOf s e a b,
  gen_reachable_any classOf s /\ a <> b
  /\ gen_holds classOf s a details e /\ gen_holds classOf s b details e /\ container s e = Some b.
Proof.
  assert (H0 : gen_reachable_any world init) by constructor.
  assert (T : forall s o, (o = 5 \/ o = 6)%nat -> gen_typed_call world s (CList o details (Add 7%nat))).
  { intros s o Ho. cbn [gen_typed_call op_args]. split; [destruct Ho; subst o; vm_compute; tauto|]. split; [vm_compute; reflexivity|].
    split; [vm_compute; reflexivity|]. split; [exact I|]. intros x [<-|[]]. right. exists cEStringToStringMapEntry.
    split; vm_compute; reflexivity. }
  set (s1 := after init (CList 5%nat details (Add 7%nat))).
  set (s2 := after s1 (CList 6%nat details (Add 7%nat))).
  assert (H1 : gen_reachable_any world s1).
  { apply (gen_any_step world init (CList 5%nat details (Add 7%nat)) 1 _ H0 (T init 5%nat (or_introl eq_refl))).
    apply after_spec. vm_compute. reflexivity. }
  assert (H2 : gen_reachable_any world s2).
  { apply (gen_any_step world s1 (CList 6%nat details (Add 7%nat)) 1 _ H1 (T s1 6%nat (or_intror eq_refl))).
    apply after_spec. vm_compute. reflexivity. }
  exists world, s2, 7%nat, 5%nat, 6%nat. split; [exact H2|]. split; [discriminate|].
  split; [exists [7%nat]; split; [vm_compute; reflexivity|now left]|].
  split; [exists [7%nat]; split; [vm_compute; reflexivity|now left]|]. vm_compute. reflexivity.
Qed.
Print Assumptions C134_entry_of_one_annotation_refuted.

(** ** C135: ESet and EUnset return *)
Theorem C135_set_returns_refuted : exists classOf o f,
  In f (features (ecore classOf) o) /\ forall n s v, genESet classOf n s o f v = None /\ genEUnset classOf n s o f = None.
Proof.
  exists world, 0%nat, (feature_named "GetEClassifier_EPackage").
  assert (Hf : In (feature_named "GetEClassifier_EPackage") (features (ecore world) 0%nat)) by (vm_compute; tauto).
  split; [exact Hf|]. intros n s v. unfold genESet, genEUnset. rewrite (featureID_own world _ _ Hf).
  apply (fixed_loops world 0%nat _ Hf). vm_compute. reflexivity.
Qed.
Print Assumptions C135_set_returns_refuted.

(** ** C136: they return exactly for the references that can be changed *)
Theorem C136_set_returns_iff_changeable : forall classOf o f,
  In f (features (ecore classOf) o) -> is_reference f = true ->
  (changeable f = true -> forall n s v, genESet classOf (S n) s o f v <> None /\ genEUnset classOf (S n) s o f <> None)
  /\ (changeable f = false -> forall n s v, genESet classOf n s o f v = None /\ genEUnset classOf n s o f = None).
Proof.
  intros classOf o f Hf Hr. unfold genESet, genEUnset. rewrite (featureID_own classOf o f Hf). split.
  - intros Hc n s v. pose proof (everywhere_spec _ changeables_checked classOf o f Hf) as H. unfold check_changeable in H.
    rewrite Hr, Hc in H. cbn [andb] in H. cbn [genSetFromID genUnsetFromID]. destruct (i_many f).
    + destruct (get_of (classOf o) (i_id f)) as [[| |l]| |]; try discriminate H.
      apply andb_prop in H as [H H3]. apply andb_prop in H as [H1 H2]. apply is_true in H2, H3.
      rewrite H2, H3. split; discriminate.
    + apply andb_prop in H as [H _]. apply andb_prop in H as [H H3].
      destruct (reference_type f) as [t|]; [|discriminate H]. apply andb_prop in H as [H1 _]. apply is_true in H1.
      rewrite H1. unfold unset_plain in H3. split; [discriminate|].
      destruct (unset_of (classOf o) (i_id f)) as [a| |]; try discriminate H3. discriminate.
  - intros Hc n s v. now apply fixed_loops.
Qed.
Print Assumptions C136_set_returns_iff_changeable.
Example C136_example :
  In eSuperTypes (features (ecore world) 0%nat) /\ changeable eSuperTypes = true
  /\ In (feature_named "GetEClass_EAllAttributes") (features (ecore world) 0%nat)
  /\ changeable (feature_named "GetEClass_EAllAttributes") = false.
Proof. vm_compute. intuition. Qed.

(** ** C137: attributes kept in fields *)
Theorem C137_attributes : forall classOf o f,
  In f (features (ecore classOf) o) -> plain_attribute f = true ->
  exists zero default, parse_default (default_text f) zero = Some default
  (* a new object has the default values *)
  /\ attrGet classOf (initial_attrs classOf) o f = Some (AV default)
  /\ forall a,
     (* ESet: accepts every value of the type; EGet then returns it, and no other attribute is changed *)
     (forall v, of_type zero v -> exists a', attrSet classOf a o f v = Some a')
     /\ (forall v a', attrSet classOf a o f v = Some a' ->
           attrGet classOf a' o f = Some v
           /\ forall o' g, In g (features (ecore classOf) o') -> plain_attribute g = true -> o' <> o \/ g <> f ->
                attrGet classOf a' o' g = attrGet classOf a o' g)
     (* EUnset returns to the default *)
     /\ (exists a', attrUnset classOf a o f = Some a' /\ attrGet classOf a' o f = Some (AV default)
           /\ attrIsSet classOf a' o f = Some false
           /\ forall o' g, In g (features (ecore classOf) o') -> plain_attribute g = true -> o' <> o \/ g <> f ->
                attrGet classOf a' o' g = attrGet classOf a o' g)
     (* EIsSet tells whether the value is another than the default *)
     /\ exists b, attrIsSet classOf a o f = Some b /\ (b = true <-> attrGet classOf a o f <> Some (AV default)).
Proof.
  intros classOf o f Hf Hp.
  destruct (attribute_check (classOf o) f Hf Hp) as (l & t & Hg & Hs & Hu & Hi & Hini & Ht & Hd).
  pose proof (featureID_own classOf o f Hf) as Hid.
  exists (zero_of l), l. split; [exact Hd|]. split.
  { rewrite (read_own classOf _ o f Hf Hp). unfold initial_attrs. now rewrite Hini. }
  assert (Hother : forall a v o' g, In g (features (ecore classOf) o') -> plain_attribute g = true -> o' <> o \/ g <> f ->
                attrGet classOf (setAttr a o f v) o' g = attrGet classOf a o' g).
  { intros a v o' g Hg' Hp' Hne. rewrite !(read_own classOf _ o' g Hg' Hp'). now rewrite setAttr_other. }
  intro a. split; [|split; [|split]].
  - intros v Hv. unfold attrSet. rewrite Hid. cbn [obind]. rewrite Hs. cbn [obind]. rewrite (assert_of_type l t v Ht Hv).
    cbn [obind]. eauto.
  - intros v a' E. unfold attrSet in E. rewrite Hid in E. cbn [obind] in E. rewrite Hs in E. cbn [obind] in E.
    destruct (assert_type t v) as [v'|] eqn:Ev; [|discriminate E]. cbn [obind] in E. injection E as <-.
    apply assert_same in Ev. rewrite Ev. split; [|apply Hother]. rewrite (read_own classOf _ o f Hf Hp). now rewrite setAttr_same.
  - exists (setAttr a o f (AV l)). unfold attrUnset. rewrite Hid. cbn [obind]. rewrite Hu. cbn [obind].
    split; [reflexivity|]. split; [rewrite (read_own classOf _ o f Hf Hp); now rewrite setAttr_same|].
    split; [|apply Hother]. unfold attrIsSet. rewrite Hid. cbn [obind]. rewrite Hi. cbn [obind read_attr]. rewrite setAttr_same.
    assert (E : is_literal (AV l) l = true) by now apply is_literal_spec. now rewrite E.
  - unfold attrIsSet. rewrite Hid. cbn [obind]. rewrite Hi. cbn [obind read_attr].
    eexists. split; [reflexivity|]. rewrite (read_own classOf _ o f Hf Hp). rewrite negb_true_iff.
    destruct (is_literal (a o f) l) eqn:E.
    + apply is_literal_spec in E. rewrite E. split; [discriminate|]. intro H. now destruct H.
    + split; [|reflexivity]. intros _ H. injection H as H. apply is_literal_spec in H. congruence.
Qed.
Print Assumptions C137_attributes.
Example C137_example :
  plain_attribute (feature_named "GetETypedElement_UpperBound") = true
  /\ In (feature_named "GetETypedElement_UpperBound") (features (ecore world) 2%nat)
  /\ attrGet world (initial_attrs world) 2%nat (feature_named "GetETypedElement_UpperBound") = Some (AV (LInt 1)).
Proof. vm_compute. intuition. Qed.

(** an enumeration literal without text reads as its name: unset, but not its default *)
Definition literal_attr := feature_named "GetEEnumLiteral_Literal".
Example C137_literal_differs : exists a,
  attrSet world (initial_attrs world) 10%nat (feature_named "GetENamedElement_Name") (AV (LStr "red")) = Some a
  /\ attrGet world a 10%nat literal_attr = Some (AV (LStr "red")).
Proof. eexists. split; vm_compute; reflexivity. Qed.

(** ** C138: giving a reference its own list leaves it as it is *)
Theorem C138_own_list_refuted : exists classOf s o f l,
  gen_reachable classOf s /\ editable classOf o f /\ genEGet classOf s o f = Some l /\ l <> []
  /\ exists s', genStep classOf 1 s (CSet o f (VList Self)) = Some (Some s') /\ genEGet classOf s' o f = Some [].
Proof.
  assert (L : gen_legal world init (CList 0%nat eSuperTypes (Add 1%nat))).
  { cbn [gen_legal op_args]. split; [|split; [vm_compute; reflexivity|split; [exact I|]]].
    - split; [vm_compute; tauto|]. split; [vm_compute; reflexivity|]. split; [vm_compute; reflexivity|vm_compute; discriminate].
    - intros x [<-|[]]. right. exists cEClass. split; vm_compute; reflexivity. }
  set (s1 := after init (CList 0%nat eSuperTypes (Add 1%nat))).
  exists world, s1, 0%nat, eSuperTypes, [1%nat]. split; [|split; [exact (proj1 L)|]].
  { apply (gen_step world init (CList 0%nat eSuperTypes (Add 1%nat)) 1 _ (gen_init world) L).
    apply after_spec. vm_compute. reflexivity. }
  split; [vm_compute; reflexivity|]. split; [discriminate|].
  exists (after s1 (CSet 0%nat eSuperTypes (VList Self))). split; [apply after_spec|]; vm_compute; reflexivity.
Qed.
Print Assumptions C138_own_list_refuted.

(** it always empties it; missing: nothing else can be said of the elements *)
Theorem C138_own_list_partial : forall classOf s o f,
  gen_reachable classOf s -> editable classOf o f -> f_many (ecore classOf) f = true ->
  forall n, exists s', genStep classOf (S n) s (CSet o f (VList Self)) = Some (Some s') /\ genEGet classOf s' o f = Some [].
Proof.
  intros classOf s o f Hs He Hm n. destruct (gen_reachable_ok classOf s Hs) as [Hw Hr]. pose proof (wf_ecore classOf) as W.
  destruct (reachable_ok _ W s Hr) as [G R]. destruct (set_own_list classOf s o f Hw G R He Hm n) as (s' & E & Hl).
  exists s'. split; [exact E|]. pose proof (many_not_container _ W f Hm) as Hc.
  rewrite (genEGet_editable classOf s' o f He), Hc. cbn [andb]. rewrite (eGet_own _ W s' o f (proj1 He)), Hc. now rewrite Hl.
Qed.
Print Assumptions C138_own_list_partial.

(** ** C139: reading a reference does not panic *)
Theorem C139_read_never_panics_refuted : exists classOf s o f,
  gen_reachable classOf s /\ In f (features (ecore classOf) o) /\ is_reference f = true /\ genEGet classOf s o f = None.
Proof.
  assert (L : forall s p, p = Add 2%nat \/ p = Remove 2%nat -> gen_legal world s (CList 0%nat eStructuralFeatures p)).
  { intros s p Hp. split; [|split; [vm_compute; reflexivity|split]].
    - split; [vm_compute; tauto|]. split; [vm_compute; reflexivity|]. split; [vm_compute; reflexivity|vm_compute; discriminate].
    - destruct Hp; subst p; exact I.
    - destruct Hp; subst p; cbn [op_args]; [|intros x []]. intros x [<-|[]]. right. exists cEStructuralFeature. split; vm_compute; reflexivity. }
  set (s1 := after init (CList 0%nat eStructuralFeatures (Add 2%nat))).
  set (s2 := after s1 (CList 0%nat eStructuralFeatures (Remove 2%nat))).
  assert (H1 : gen_reachable world s1).
  { apply (gen_step world init (CList 0%nat eStructuralFeatures (Add 2%nat)) 1 _ (gen_init world) (L init _ (or_introl eq_refl))).
    apply after_spec. vm_compute. reflexivity. }
  assert (H2 : gen_reachable world s2).
  { apply (gen_step world s1 (CList 0%nat eStructuralFeatures (Remove 2%nat)) 1 _ H1 (L s1 _ (or_intror eq_refl))).
    apply after_spec. vm_compute. reflexivity. }
  exists world, s2, 2%nat, eContainingClass. split; [exact H2|].
  split; [vm_compute; tauto|]. split; vm_compute; reflexivity.
Qed.
Print Assumptions C139_read_never_panics_refuted.

(** ** C140: it panics exactly for the container reference an object was last held by, once removed *)
Theorem C140_read_panics_iff_removed : forall classOf s o f,
  gen_reachable classOf s -> In f (features (ecore classOf) o) -> is_reference f = true -> f <> details ->
  changeable f = true \/ f_opp (ecore classOf) f <> None ->
  let M := ecore classOf in
  (genEGet classOf s o f = None <-> isContainer M f = true /\ containerFeatureID s o = f_id M f /\ container s o = None)
  /\ (genEGet classOf s o f <> None -> genEGet classOf s o f = eGet M s o f).
Proof.
  intros classOf s o f Hs Hf Hr Hd Hk M. pose proof (wf_ecore classOf) as W.
  assert (E : genEGet classOf s o f =
      if isContainer M f && (containerFeatureID s o =? f_id M f) && match container s o with None => true | Some _ => false end
      then None else eGet M s o f).
  { destruct Hk as [Hk|Hk]; [apply genEGet_editable; repeat split; assumption|].
    apply genEGet_linked; [exact Hf|]. change (ecore classOf) with M in Hk. destruct (f_opp M f) as [g|] eqn:Eg; [|now destruct Hk].
    exact (bidirectional_removable (classOf o) f Hf (bid_some classOf f g Eg)). }
  rewrite E. rewrite (eGet_own M W s o f Hf).
  destruct (isContainer M f); cbn [andb]; [|split; [split; [discriminate|intros [H _]; discriminate]|reflexivity]].
  destruct (Z.eqb_spec (containerFeatureID s o) (f_id M f)); cbn [andb]; [|split; [split; [discriminate|tauto]|reflexivity]].
  destruct (container s o).
  - split; [split; [discriminate|intros (_ & _ & H); discriminate]|reflexivity].
  - split; [tauto|]. intro H. now destruct H.
Qed.
Print Assumptions C140_read_panics_iff_removed.
Example C140_example : exists s, gen_run init [CList 0%nat eStructuralFeatures (Add 2%nat)] = Some s
  /\ genEGet world s 2%nat eContainingClass = Some [0%nat]
  /\ genEGet world s 0%nat ePackage = Some []
  /\ isContainer (ecore world) eContainingClass = true /\ f_opp (ecore world) eContainingClass <> None.
Proof. eexists. split; [vm_compute; reflexivity|]. vm_compute. intuition discriminate. Qed.

(** ** C141: ESet and EUnset announce the feature they are called for *)
Theorem C141_announced_refuted : exists classOf o f,
  In f (features (ecore classOf) o) /\ changeable f = true /\ ~ announced classOf o f
  /\ exists g, set_announces (classOf o) (featureID (ecore_info f)) = Some (featureID (ecore_info g)) /\ g <> f.
Proof.
  exists world, 9%nat, (feature_named "GetEClassifier_InstanceTypeName").
  assert (Hf : In (feature_named "GetEClassifier_InstanceTypeName") (features (ecore world) 9%nat)) by (vm_compute; tauto).
  split; [exact Hf|]. split; [vm_compute; reflexivity|]. split.
  - intros (id & Hat & Hset & _).
    pose proof (own_id world 9%nat _ id Hat) as Hid. symmetry in Hid.
    assert (E : set_announces (world 9%nat) (featureID (ecore_info (feature_named "GetEClassifier_InstanceTypeName"))) = Some 2)
      by (vm_compute; reflexivity).
    assert (E' : featureID (ecore_info (feature_named "GetEClassifier_InstanceTypeName")) = 4) by (vm_compute; reflexivity).
    rewrite Hid in Hset. unfold i_id in Hset. rewrite E, E' in Hset. discriminate Hset.
  - exists (feature_named "GetEClassifier_InstanceClassName"). split; vm_compute; [reflexivity|discriminate].
Qed.
Print Assumptions C141_announced_refuted.

(** missing: instanceTypeName, whose setter sets and announces instanceClassName, and defaultValue *)
Theorem C141_announced_partial : forall classOf o f,
  In f (features (ecore classOf) o) -> changeable f = true ->
  feature_name f <> "instanceTypeName" -> feature_name f <> "defaultValue" -> announced classOf o f.
Proof.
  intros classOf o f Hf Hc N1 N2. pose proof (everywhere_spec _ announced_checked classOf o f Hf) as H. unfold check_announced in H.
  assert (E : existsb (String.eqb (feature_name f)) ["instanceTypeName"; "defaultValue"] = false).
  { cbn [existsb]. apply String.eqb_neq in N1, N2. now rewrite N1, N2. }
  rewrite Hc, E in H. cbn [negb andb] in H. apply andb_prop in H as [H1 H2]. apply is_true in H1, H2.
  exists (i_id f). split; [|split; assumption]. exact (proj1 (feat _ (wf_ecore classOf) o f Hf)).
Qed.
Print Assumptions C141_announced_partial.
Example C141_example : In eSuperTypes (features (ecore world) 0%nat) /\ changeable eSuperTypes = true
  /\ set_announces cEClass (featureID (ecore_info eSuperTypes)) = Some (featureID (ecore_info eSuperTypes)).
Proof. vm_compute. intuition. Qed.
