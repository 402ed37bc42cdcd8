(** What the writer writes for a document, as an XML tree. *)
From Coq Require Import String Permutation.
From Verif Require Import Base Chars StrconvModel StrconvProofs XmlTokenModel XmlInModel XmlInSpec XmlOutModel XmlOutSpec XmlOutProofs XmlTree.
Open Scope Z_scope.

Section Writing.
Context {V : Type} (M : meta V) (op : options) (W : writing).
Notation fname f := (f_name (w_feature W f)).
Notation wattr := (str * str * str)%type.

Definition idrefs_text (l : list nat) : str := join [32] (map (fun k => 35 :: w_frag W k) l).
Definition slot_attrs (fv : nat * dval V) : list wattr :=
  match snd fv with
  | DData v => [(fname (fst fv), escape (m_show M (fst fv) v), m_show M (fst fv) v)]
  | DLinks l => [(fname (fst fv), idrefs_text l, idrefs_text l)]
  | _ => []
  end.
Definition type_attr (b : bool) (c : nat) : list wattr := if b then [(lit "xsi:type", w_class W c, w_class W c)] else [].
Definition id_attr (id : str) : list wattr := if op_manager op then [(op_id op, id, id)] else [].
Definition href_node (f : nat) (x : nat * str) : node :=
  Elem (fname f) (type_attr (negb (str_eqb (w_class W (m_type M f)) (w_class W (fst x))) && m_abstract M (m_type M f)) (fst x) ++ [(lit "href", snd x, snd x)]) CNone.
Definition kid_type (f : nat) (d : dobj V) : list wattr := type_attr (negb (str_eqb (w_class W (m_type M f)) (w_class W (d_class d)))) (d_class d).
Definition contents_of (l : list node) : cont := match l with [] => CNone | _ => CKids l end.
Fixpoint element (n : str) (pre : list wattr) (d : dobj V) : node :=
  match d with
  | DObj c id slots =>
      Elem n (pre ++ id_attr id ++ flat_map slot_attrs slots)
        (contents_of (flat_map (fun fv => match snd fv with
                                          | DDatas l => map (fun v => Elem (fname (fst fv)) [] (CText (m_show M (fst fv) v))) l
                                          | DHrefs l => map (href_node (fst fv)) l
                                          | DKids l => map (fun k => element (fname (fst fv)) (kid_type (fst fv) k) k) l
                                          | _ => []
                                          end) slots))
  end.
Definition slot_nodes (fv : nat * dval V) : list node :=
  match snd fv with
  | DDatas l => map (fun v => Elem (fname (fst fv)) [] (CText (m_show M (fst fv) v))) l
  | DHrefs l => map (href_node (fst fv)) l
  | DKids l => map (fun k => element (fname (fst fv)) (kid_type (fst fv) k) k) l
  | _ => []
  end.
Lemma element_eq : forall n pre c id slots, element n pre (DObj c id slots) = Elem n (pre ++ id_attr id ++ flat_map slot_attrs slots) (contents_of (flat_map slot_nodes slots)).
Proof. reflexivity. Qed.

Definition space_attr (pu : str * str) : wattr := (fst (space_attribute pu), snd pu, snd pu).
Definition document_tree (d : dobj V) : node := element (w_class W (d_class d)) (map space_attr (w_spaces W)) d.

Definition lines (d : Z) (l : list node) : str := flat_map (fun k => blanks d ++ print d k ++ [10]) l.
Definition tail (d : Z) (n : str) (c : cont) : str :=
  match c with
  | CNone => [47; 62]
  | CText t => [62] ++ t ++ [60; 47] ++ n ++ [62]
  | CKids l => [62; 10] ++ lines (d + 1) l ++ blanks d ++ [60; 47] ++ n ++ [62]
  end.
Lemma print_eq : forall d n attrs c, print d (Elem n attrs c) = [60] ++ n ++ flat_map pattr attrs ++ tail d n c.
Proof. reflexivity. Qed.

(** elements are written *)
Definition emits (P : xml -> option xml) (ks : list node) : Prop :=
  forall s t ns d b, running s -> 1 <= d ->
    P (at_state s t ns d b) = Some (at_state s (t ++ match ks with [] => [] | _ => closing b ++ lines d ks end) ns d (match ks with [] => b | _ => false end)).
Lemma emits_none : emits Some [].
Proof. intros s t ns d b R D. rewrite app_nil_r. auto. Qed.
Lemma emits_seq : forall P Q k l, emits P k -> emits Q l -> emits (fun s => let? s := P s in Q s) (k ++ l).
Proof.
  intros P Q k l HP HQ s t ns d b R D. rewrite HP by auto. cbn [obind]. rewrite HQ by auto. destruct k as [|x k]; cbn [app].
  - rewrite app_nil_r. auto.
  - destruct l as [|y l].
    + rewrite !app_nil_r. auto.
    + cbn [closing app]. unfold lines. change (x :: k ++ y :: l) with ((x :: k) ++ y :: l). rewrite flat_map_app. rewrite <- !app_assoc. auto.
Qed.
Lemma emits_ext : forall P Q k, (forall s, P s = Q s) -> emits P k -> emits Q k.
Proof. intros P Q k E H s t ns d b R D. rewrite <- E. auto. Qed.
Lemma emits_one : forall P x, (forall s t ns d b, running s -> 1 <= d -> P (at_state s t ns d b) = Some (at_state s (t ++ closing b ++ blanks d ++ print d x ++ [10]) ns d false)) -> emits P [x].
Proof. intros P x H s t ns d b R D. rewrite H by auto. unfold lines. cbn [flat_map]. rewrite app_nil_r. auto. Qed.

Lemma addContent_emits : forall n v, name n -> emits (addContent n v) [Elem n [] (CText v)].
Proof.
  intros n v N. apply emits_one. intros s t ns d b R D. rewrite addContent_at by (auto; lia). rewrite print_eq. cbn [flat_map app tail]. rewrite <- ?app_assoc. cbn [app]. rewrite <- ?app_assoc. reflexivity.
Qed.
Lemma type_at : forall (b : bool) c s t ns d b', running s -> (if b then saveTypeAttribute (w_class W c) (at_state s t ns d b') else at_state s t ns d b') = at_state s (t ++ flat_map pattr (type_attr b c)) ns d b'.
Proof.
  intros b c s t ns d b' R. destruct b; cbn [type_attr flat_map]; [|rewrite app_nil_r; auto]. unfold saveTypeAttribute. rewrite addAttribute_at by auto. rewrite app_nil_r. auto.
Qed.

Section Slots.
Context (target : nat -> Prop).
Hypothesis ID : id_attribute_ok op.

Lemma saveHRef_emits : forall c f x, feature_ok M op W c f -> XmlOutModel.f_reference (w_feature W f) = true -> snd x <> [] -> emits (saveHRef (w_feature W f) (href_target W x)) [href_node f x].
Proof.
  intros c f x FO RF N. apply emits_one. intros s t ns d b R D. unfold saveHRef. cbn [t_href href_target t_class]. destruct (str_eqb (snd x) []) eqn:E; [apply str_eqb_eq in E; congruence|].
  destruct (fo_type _ _ _ _ _ FO RF) as (_ & FT & FA). rewrite FT, FA. pose proof (proj1 (fo_name _ _ _ _ _ FO)) as NM.
  rewrite startElement_at by (auto; lia). cbn [obind]. rewrite type_at by auto. rewrite addAttribute_at by auto. rewrite endEmpty_at by auto. f_equal.
  unfold href_node. rewrite print_eq. cbn [tail]. rewrite flat_map_app. cbn [flat_map pattr]. rewrite app_nil_r. replace (d + 1 - 1) with d by lia. f_equal. rewrite <- !app_assoc. cbn [app]. rewrite <- ?app_assoc. reflexivity.
Qed.
Lemma saveHRefs_emits : forall c f l, feature_ok M op W c f -> XmlOutModel.f_reference (w_feature W f) = true -> (forall x, In x l -> snd x <> []) ->
  emits (saveHRefs (w_feature W f) (map (fun x => Some (href_target W x)) l)) (map (href_node f) l).
Proof.
  intros c f l FO RF. induction l as [|x l IH]; intros H; cbn [map saveHRefs]; [apply emits_none|].
  apply (emits_seq _ _ [href_node f x]); [apply (saveHRef_emits c); auto; apply H; cbn; auto|apply IH; intros; apply H; cbn; auto].
Qed.
Lemma saveDatas_emits : forall f l, name (fname f) -> emits (saveDataTypeMany (w_feature W f) (map (fun v => Some (m_show M f v)) l)) (map (fun v => Elem (fname f) [] (CText (m_show M f v))) l).
Proof.
  intros f l N. induction l as [|v l IH]; cbn [map saveDataTypeMany]; [apply emits_none|]. apply (emits_seq _ _ [Elem (fname f) [] (CText (m_show M f v))]); auto. apply addContent_emits. auto.
Qed.

(** *** The attributes *)
Definition wslot (fv : nat * dval V) : slot :=
  let '(f, v) := fv in
  match v with
  | DUnset => mkS (w_feature W f) false VNil
  | DData v => mkS (w_feature W f) true (XmlOutModel.VData (m_show M f v))
  | DDatas l => mkS (w_feature W f) true (VDatas (map (fun v => Some (m_show M f v)) l))
  | DLinks l => mkS (w_feature W f) true
                  (if is_many M f then VRefs (map (fun k => Some (link_target W k)) l)
                   else match l with k :: _ => VRef (link_target W k) | [] => VNil end)
  | DHrefs l => mkS (w_feature W f) true
                  (if is_many M f then VRefs (map (fun x => Some (href_target W x)) l)
                   else match l with x :: _ => VRef (href_target W x) | [] => VNil end)
  | DKids l => mkS (w_feature W f) true
                 (if is_many M f then VChildren (map (fun k => Some (written M op W k)) l)
                  else match l with k :: _ => VChild (written M op W k) | [] => VNil end)
  end.
Lemma written_eq : forall c id slots, written M op W (DObj c id slots) = mkO (mkT (w_class W c) false InThis false (if op_manager op then Some id else None) [] []) (map wslot slots).
Proof. reflexivity. Qed.

Definition selected (fv : nat * dval V) : bool := match snd fv with DDatas _ | DHrefs _ | DKids _ => true | _ => false end.
Lemma idrefs_links : forall l buf, l <> [] -> idrefs (map (fun k => Some (link_target W k)) l) false buf = Some (false, buf ++ idrefs_text l).
Proof.
  induction l as [|k l IH]; intros buf N; [congruence|]. cbn [map idrefs]. unfold link_target at 1. cbn [t_idref str_eqb]. destruct (str_eqb (35 :: w_frag W k) []) eqn:E; [apply str_eqb_eq in E; discriminate|].
  destruct l as [|k' l].
  - cbn [map]. unfold idrefs_text. cbn [map join]. reflexivity.
  - cbn [map] in *. rewrite IH by discriminate. unfold idrefs_text. cbn [map]. rewrite (join_cons [32] (35 :: w_frag W k)) by (intros X; discriminate X). rewrite <- !app_assoc. reflexivity.
Qed.
Lemma links_same : forall l, resource_kind_refs (map (fun k => Some (link_target W k)) l) = RSame.
Proof. induction l as [|k l IH]; cbn; auto. Qed.
Lemma idrefs_not_nil : forall l, l <> [] -> exists c r, idrefs_text l = c :: r.
Proof.
  intros [|k l] N; [congruence|]. unfold idrefs_text. cbn [map]. destruct l; [cbn; eauto|]. cbn [map]. rewrite join_cons by discriminate. cbn. eauto.
Qed.
Lemma zlen_gt : forall (l : str), l <> [] -> (zlen l >? 0) = true.
Proof. intros [|c l] N; [congruence|]. unfold zlen. cbn [length]. lia. Qed.

Lemma save_attribute_exact : forall c f v s t ns d b, running s -> fits M op W target c f v ->
  exists F set va, wslot (f, v) = mkS F set va /\ save_attribute F set va (at_state s t ns d b) = Some (at_state s (t ++ flat_map pattr (slot_attrs (f, v))) ns d b, selected (f, v)).
Proof.
  intros c f v s t ns d b R H. destruct H as [c f|c f v FO K SH AL|c f l FO K N H KP|c f l FO SH NC ND H|c f l FO SH NC H|c f l FO SH C H]; cbn [wslot]; eexists _, _, _; (split; [reflexivity|]); cbn [slot_attrs snd fst selected flat_map pattr].
  - rewrite app_nil_r. unfold save_attribute. destruct (getSaveFeatureKind (w_feature W f)); reflexivity.
  - destruct (fo_saved _ _ _ _ _ FO) as (S1 & S2 & S3 & S4). unfold save_attribute, getSaveFeatureKind. rewrite S1, (fo_reference _ _ _ _ _ FO), K, S3, (fo_many _ _ _ _ _ FO). unfold is_many. rewrite K. cbn [negb].
    destruct (f_unsettable (w_feature W f)); cbn [negb isNil saveDataTypeSingle obind]; rewrite addAttribute_at, app_nil_r by auto; reflexivity.
  - destruct (fo_saved _ _ _ _ _ FO) as (S1 & S2 & S3 & S4). unfold save_attribute, getSaveFeatureKind. rewrite S1, (fo_reference _ _ _ _ _ FO), K, S3, (fo_many _ _ _ _ _ FO). unfold is_many. rewrite K. cbn [negb isEmpty obind].
    rewrite app_nil_r. destruct l as [|v l]; [congruence|]. cbn [map]. reflexivity.
  - destruct (fo_saved _ _ _ _ _ FO) as (S1 & S2 & S3 & S4).
    assert (RF : XmlOutModel.f_reference (w_feature W f) = true) by (rewrite (fo_reference _ _ _ _ _ FO); unfold shaped in SH; destruct (m_kind M f); auto; destruct SH).
    destruct (fo_type _ _ _ _ _ FO RF) as (FC & _ & _). unfold save_attribute, getSaveFeatureKind. rewrite S1, RF, FC, NC, S2, (fo_many _ _ _ _ _ FO). unfold shaped in SH. unfold is_many. destruct (m_kind M f); try (destruct SH; fail).
    + assert (E : saveIDRefMany (w_feature W f) (VRefs (map (fun k => Some (link_target W k)) l)) (at_state s t ns d b) = Some (at_state s (t ++ attribute (fname f) (idrefs_text l) ++ []) ns d b)).
      { unfold saveIDRefMany. rewrite idrefs_links by auto. cbn [obind negb app]. destruct (idrefs_not_nil l SH) as (x & r & E). rewrite zlen_gt by congruence. cbn [andb]. rewrite addAttribute_at, app_nil_r by auto. auto. }
      destruct l as [|k l]; [congruence|]. destruct (f_unsettable (w_feature W f)); cbn [negb].
      * cbn [map isEmpty obind resource_kind_many]. change (Some (link_target W k) :: map (fun k => Some (link_target W k)) l) with (map (fun k => Some (link_target W k)) (k :: l)). rewrite links_same, E. reflexivity.
      * cbn [map resource_kind_many]. change (Some (link_target W k) :: map (fun k => Some (link_target W k)) l) with (map (fun k => Some (link_target W k)) (k :: l)). rewrite links_same, E. reflexivity.
    + destruct l as [|k [|? ?]]; try discriminate.
      assert (E : saveIDRefSingle (w_feature W f) (VRef (link_target W k)) (at_state s t ns d b) = at_state s (t ++ attribute (fname f) (idrefs_text [k]) ++ []) ns d b).
      { unfold saveIDRefSingle. cbn [link_target t_idref]. destruct (str_eqb (35 :: w_frag W k) []) eqn:X; [apply str_eqb_eq in X; discriminate|]. rewrite addAttribute_at, app_nil_r by auto. reflexivity. }
      destruct (f_unsettable (w_feature W f)); cbn [negb isNil resource_kind_single link_target t_proxy t_place]; fold (link_target W k); rewrite E; reflexivity.
  - rewrite app_nil_r. destruct (fo_saved _ _ _ _ _ FO) as (S1 & S2 & S3 & S4).
    assert (RF : XmlOutModel.f_reference (w_feature W f) = true) by (rewrite (fo_reference _ _ _ _ _ FO); unfold shaped in SH; destruct (m_kind M f); auto; destruct SH).
    destruct (fo_type _ _ _ _ _ FO RF) as (FC & _ & _). unfold save_attribute, getSaveFeatureKind. rewrite S1, RF, FC, NC, S2, (fo_many _ _ _ _ _ FO). unfold shaped in SH. unfold is_many. destruct (m_kind M f); try (destruct SH; fail).
    + destruct l as [|x l]; [congruence|]. destruct (f_unsettable (w_feature W f)); cbn [negb map isEmpty obind resource_kind_many resource_kind_refs href_target t_proxy t_place]; reflexivity.
    + destruct l as [|x [|? ?]]; try discriminate. destruct (f_unsettable (w_feature W f)); cbn [negb isNil resource_kind_single href_target t_proxy t_place]; reflexivity.
  - rewrite app_nil_r. destruct (fo_saved _ _ _ _ _ FO) as (S1 & S2 & S3 & S4).
    assert (RF : XmlOutModel.f_reference (w_feature W f) = true) by (rewrite (fo_reference _ _ _ _ _ FO); unfold shaped in SH; destruct (m_kind M f); auto; destruct SH).
    destruct (fo_type _ _ _ _ _ FO RF) as (FC & _ & _). unfold save_attribute, getSaveFeatureKind. rewrite S1, RF, FC, C, (fo_many _ _ _ _ _ FO). unfold shaped in SH. unfold is_many. destruct (m_kind M f); try (destruct SH; fail).
    + destruct l as [|x l]; [congruence|]. destruct (f_unsettable (w_feature W f)); cbn [negb map isEmpty obind]; reflexivity.
    + destruct (f_unsettable (w_feature W f)); cbn [negb]; reflexivity.
Qed.
Lemma save_attributes_exact : forall c slots s t ns d b, running s -> (forall f v, In (f, v) slots -> fits M op W target c f v) ->
  save_attributes (map wslot slots) (at_state s t ns d b) = Some (at_state s (t ++ flat_map pattr (flat_map slot_attrs slots)) ns d b, map selected slots).
Proof.
  intros c slots. induction slots as [|[f v] slots IH]; intros s t ns d b R H; cbn [map save_attributes flat_map].
  - rewrite app_nil_r. auto.
  - destruct (save_attribute_exact c f v s t ns d b R) as (F & set & va & E1 & E2); [apply H; cbn; auto|]. rewrite E1, E2. cbn [obind]. rewrite IH by (auto; intros; apply H; cbn; auto). cbn [obind fst snd].
    rewrite flat_map_app, <- app_assoc. auto.
Qed.

(** *** The elements *)
Definition saves_exactly (d : dobj V) : Prop := forall s t n ns dd, running s -> name n -> 1 <= dd ->
  saveFeatures (op_id op) (written M op W d) (at_state s t (n :: ns) dd true) =
  Some (at_state s (t ++ flat_map pattr (flat_map slot_attrs (d_slots d)) ++ tail (dd - 1) n (contents_of (flat_map slot_nodes (d_slots d))) ++ [10]) ns (dd - 1) false).

Lemma element_tail : forall n pre d, exists c id slots, d = DObj c id slots /\ element n pre d = Elem n (pre ++ id_attr (d_id d) ++ flat_map slot_attrs (d_slots d)) (contents_of (flat_map slot_nodes (d_slots d))).
Proof. intros n pre [c id slots]. exists c, id, slots. split; reflexivity. Qed.

Lemma saveElementID_at : forall d s t ns dd b, running s -> saveElementID (op_id op) (o_target (written M op W d)) (at_state s t ns dd b) = at_state s (t ++ flat_map pattr (id_attr (d_id d))) ns dd b.
Proof.
  intros [c id slots] s t ns dd b R. rewrite written_eq. cbn [o_target]. unfold saveElementID, id_attr. cbn [t_id d_id]. unfold id_attribute_ok in ID. destruct (op_manager op).
  - destruct (proj2 ID eq_refl) as [N _]. rewrite zlen_name by auto. rewrite addAttribute_at by auto. cbn [flat_map pattr]. rewrite app_nil_r. auto.
  - cbn. rewrite app_nil_r. auto.
Qed.

Lemma saveInternal_emits : forall c f d, feature_ok M op W c f -> XmlOutModel.f_reference (w_feature W f) = true -> saves_exactly d ->
  emits (saveInternal (op_id op) (written M op W d) (w_feature W f)) [element (fname f) (kid_type f d) d].
Proof.
  intros c f d FO RF SV. apply emits_one. intros s t ns dd b R D. unfold saveInternal.
  assert (T : o_target (written M op W d) = mkT (w_class W (d_class d)) false InThis false (if op_manager op then Some (d_id d) else None) [] []) by (destruct d; reflexivity).
  rewrite T. cbn [t_direct t_proxy t_class orb]. rewrite <- T. clear T. pose proof (proj1 (fo_name _ _ _ _ _ FO)) as NM. rewrite startElement_at by (auto; lia). cbn [obind].
  destruct (fo_type _ _ _ _ _ FO RF) as (_ & FT & _). destruct (fo_saved _ _ _ _ _ FO) as (_ & _ & _ & FAny). rewrite FT, FAny. cbn [negb]. rewrite andb_true_r. rewrite type_at by auto. rewrite saveElementID_at by auto. rewrite SV by (auto; lia).
  destruct (element_tail (fname f) (kid_type f d) d) as (c' & id & slots & E & ->). rewrite print_eq. unfold kid_type. rewrite !flat_map_app. replace (dd + 1 - 1) with dd by lia. f_equal. f_equal. rewrite <- !app_assoc. cbn [app]. rewrite <- ?app_assoc. reflexivity.
Qed.

Lemma one_element_emits : forall c f v, fits M op W target c f v -> selected (f, v) = true ->
  (forall l d, v = DKids l -> In d l -> saves_exactly d) ->
  exists F set va, wslot (f, v) = mkS F set va /\ emits (one_element (op_id op) F va) (slot_nodes (f, v)) /\ slot_nodes (f, v) <> [].
Proof.
  intros c f v H SEL SV. destruct H as [c f|c f v FO K SH AL|c f l FO K N H KP|c f l FO SH NC ND H|c f l FO SH NC H|c f l FO SH C H]; try discriminate; cbn [wslot]; eexists _, _, _; (split; [reflexivity|]); cbn [slot_nodes fst snd].
  - destruct (fo_saved _ _ _ _ _ FO) as (S1 & S2 & S3 & S4). split; [|destruct l; [congruence|discriminate]]. unfold one_element, getSaveFeatureKind. rewrite S1, (fo_reference _ _ _ _ _ FO), K, S3, (fo_many _ _ _ _ _ FO). unfold is_many. rewrite K. cbn [negb].
    apply saveDatas_emits. apply (fo_name _ _ _ _ _ FO).
  - destruct (fo_saved _ _ _ _ _ FO) as (S1 & S2 & S3 & S4).
    assert (RF : XmlOutModel.f_reference (w_feature W f) = true) by (rewrite (fo_reference _ _ _ _ _ FO); unfold shaped in SH; destruct (m_kind M f); auto; destruct SH).
    destruct (fo_type _ _ _ _ _ FO RF) as (FC & _ & _). split; [|unfold shaped in SH; destruct (m_kind M f); try (destruct SH; fail); destruct l; cbn in *; congruence].
    unfold one_element, getSaveFeatureKind. rewrite S1, RF, FC, NC, S2, (fo_many _ _ _ _ _ FO). unfold shaped in SH. unfold is_many. destruct (m_kind M f); try (destruct SH; fail).
    + assert (E : emits (saveHRefs (w_feature W f) (map (fun x => Some (href_target W x)) l)) (map (href_node f) l)) by (apply (saveHRefs_emits c); auto; intros [c' u] I; apply (H c' u I)).
      destruct (f_unsettable (w_feature W f)); exact E.
    + destruct l as [|x [|? ?]]; try discriminate. assert (E : emits (saveHRef (w_feature W f) (href_target W x)) [href_node f x]) by (apply (saveHRef_emits c); auto; destruct x as [c' u]; apply (H c' u); cbn; auto).
      destruct (f_unsettable (w_feature W f)); exact E.
  - destruct (fo_saved _ _ _ _ _ FO) as (S1 & S2 & S3 & S4).
    assert (RF : XmlOutModel.f_reference (w_feature W f) = true) by (rewrite (fo_reference _ _ _ _ _ FO); unfold shaped in SH; destruct (m_kind M f); auto; destruct SH).
    destruct (fo_type _ _ _ _ _ FO RF) as (FC & _ & _). split; [|unfold shaped in SH; destruct (m_kind M f); try (destruct SH; fail); destruct l; cbn in *; congruence].
    unfold one_element, getSaveFeatureKind. rewrite S1, RF, FC, C, (fo_many _ _ _ _ _ FO). unfold shaped in SH. unfold is_many. destruct (m_kind M f); try (destruct SH; fail).
    + assert (E : emits (children (op_id op) (w_feature W f) (map (fun k => Some (written M op W k)) l)) (map (fun k => element (fname f) (kid_type f k) k) l)).
      { assert (SV' : forall d, In d l -> saves_exactly d) by (intros; eapply SV; eauto). clear SH H SEL SV. induction l as [|k l IH]; cbn [map children]; [apply emits_none|].
        apply (emits_seq _ _ [element (fname f) (kid_type f k) k]); [apply (saveInternal_emits c); auto; apply SV'; cbn; auto|apply IH; intros; apply SV'; cbn; auto]. }
      destruct (f_unsettable (w_feature W f)); exact E.
    + destruct l as [|x [|? ?]]; try discriminate. assert (E : emits (saveInternal (op_id op) (written M op W x) (w_feature W f)) [element (fname f) (kid_type f x) x]) by (apply (saveInternal_emits c); auto; eapply SV; [reflexivity|cbn; auto]).
      destruct (f_unsettable (w_feature W f)); exact E.
Qed.
Lemma elements_emit : forall c slots, (forall f v, In (f, v) slots -> fits M op W target c f v) -> (forall f l d, In (f, DKids l) slots -> In d l -> saves_exactly d) ->
  emits (elements (op_id op) (map wslot slots) (map selected slots)) (flat_map slot_nodes slots).
Proof.
  intros c slots. induction slots as [|[f v] slots IH]; intros H SV; cbn [map flat_map].
  - apply (emits_ext Some); [auto|apply emits_none].
  - destruct (selected (f, v)) eqn:SEL.
    + destruct (one_element_emits c f v) as (F & set & va & E & EM & _); auto; [apply H; cbn; auto|intros l d -> I; eapply SV; cbn; eauto|]. rewrite E. cbn [elements].
      apply emits_seq; auto. apply IH; [intros; apply H; cbn; auto|intros; eapply SV; cbn; eauto].
    + assert (N : slot_nodes (f, v) = []) by (destruct v; try reflexivity; discriminate). rewrite N. cbn [app].
      assert (E : exists F set va, wslot (f, v) = mkS F set va) by (destruct v; cbn; eauto). destruct E as (F & set & va & E). rewrite E. cbn [elements]. apply IH; [intros; apply H; cbn; auto|intros; eapply SV; cbn; eauto].
Qed.
Lemma selected_nodes : forall c slots, (forall f v, In (f, v) slots -> fits M op W target c f v) -> existsb (fun b => b) (map selected slots) = match flat_map slot_nodes slots with [] => false | _ => true end.
Proof.
  intros c slots. induction slots as [|[f v] slots IH]; intros H; cbn [map existsb flat_map]; auto. rewrite IH by (intros; apply H; cbn; auto).
  destruct (selected (f, v)) eqn:SEL.
  - assert (N : slot_nodes (f, v) <> []).
    { specialize (H f v ltac:(cbn; auto)). destruct H as [c f|c f v FO K SH AL|c f l FO K N H KP|c f l FO SH NC ND H|c f l FO SH NC H|c f l FO SH C H]; try discriminate; cbn [slot_nodes snd fst].
      - destruct l; [congruence|discriminate].
      - unfold shaped in SH; destruct (m_kind M f); try (destruct SH; fail); destruct l; cbn in *; congruence.
      - unfold shaped in SH; destruct (m_kind M f); try (destruct SH; fail); destruct l; cbn in *; congruence. }
    destruct (slot_nodes (f, v)); [congruence|reflexivity].
  - assert (N : slot_nodes (f, v) = []) by (destruct v; try reflexivity; discriminate). rewrite N. reflexivity.
Qed.

Lemma saves_of : forall d, valid M op W target d -> (forall f l k, In (f, DKids l) (d_slots d) -> In k l -> saves_exactly k) -> saves_exactly d.
Proof.
  intros d VD SV s t n ns dd R N D. destruct VD as [c id slots CO ND PI H]. cbn [d_slots] in *. rewrite written_eq, saveFeatures_eq.
  rewrite (save_attributes_exact c) by auto. cbn [obind]. rewrite (selected_nodes c) by auto.
  pose proof (elements_emit c slots H SV) as EM.
  destruct (flat_map slot_nodes slots) as [|x ks] eqn:E; cbn [negb].
  - rewrite endEmpty_at by auto. cbn [contents_of tail]. f_equal. f_equal. rewrite <- !app_assoc. reflexivity.
  - rewrite EM by auto. cbn [obind]. rewrite endElement_at by auto. cbn [contents_of tail closing]. replace (dd - 1 + 1) with dd by lia. f_equal. f_equal. rewrite <- !app_assoc. reflexivity.
Qed.

Lemma kid_smaller : forall (slots : list (nat * dval V)) f l k c id, In (f, DKids l) slots -> In k l -> (dsize k < dsize (DObj c id slots))%nat.
Proof.
  intros slots f l k c id I J. cbn [dsize]. apply Nat.lt_succ_r. induction slots as [|[g v] slots IH]; [destruct I|]. cbn [fold_right snd]. destruct I as [E|I].
  - injection E as -> ->. assert (X : (dsize k <= fold_right (fun k m => (dsize k + m)%nat) 0%nat l)%nat).
    { clear - J. induction l as [|x l IH]; [destruct J|]. cbn [fold_right]. destruct J as [->|J]; [lia|]. specialize (IH J). lia. }
    lia.
  - specialize (IH I). lia.
Qed.
Lemma valid_kid : forall d f l k, valid M op W target d -> In (f, DKids l) (d_slots d) -> In k l -> valid M op W target k.
Proof.
  intros d f l k [c id slots CO ND PI H] I J. cbn [d_slots] in I. specialize (H f _ I). inversion H as [| | | | |c' f' l' FO SH C K]; subst. apply (K k J).
Qed.
Lemma saves_every : forall n d, (dsize d < n)%nat -> valid M op W target d -> saves_exactly d.
Proof.
  induction n as [|n IH]; intros d L VD; [lia|]. apply saves_of; auto. intros f l k I J. apply IH; [|eapply valid_kid; eauto].
  destruct d as [c id slots]. cbn [d_slots] in I. pose proof (kid_smaller slots f l k c id I J). lia.
Qed.

Lemma saveNamespaces_first : forall l t u ns d b, saveNamespaces (map space_attribute l) (mkX t (Some u) true ns d b) = mkX (t ++ flat_map pattr (map space_attr l)) (Some u) true ns d b.
Proof.
  induction l as [|[p v] l IH]; intros t u ns d b; cbn [map saveNamespaces flat_map]; [rewrite app_nil_r; auto|].
  unfold space_attribute at 1. cbn [fst snd]. unfold addAttribute. unfold add. cbn [x_back x_second x_first x_names x_depth x_start]. rewrite IH. f_equal. unfold space_attr at 2. unfold pattr at 2, attribute, space_attribute. cbn [fst snd]. rewrite <- !app_assoc. reflexivity.
Qed.

Lemma save_tree : forall version encoding d, valid M op W target d -> name (w_class W (d_class d)) ->
  save M op W version encoding d = Some (header version encoding ++ [10] ++ print 0 (document_tree d) ++ [10]).
Proof.
  intros version encoding d VD N. unfold save, encodeTopObject, saveTopObject. set (n := w_class W (d_class d)) in *.
  set (h := header version encoding).
  assert (H0 : saveHeader version encoding newXml = mkX (h ++ [10]) None false [] 0 false) by reflexivity.
  rewrite H0.
  assert (ST : startElement n (mkX (h ++ [10]) None false [] 0 false) = Some (mkX (h ++ [10] ++ [60] ++ n) (Some []) false [n] 1 true)).
  { unfold startElement, close_if_start. cbn [x_start]. cbv zeta. rewrite zlen_name by auto. cbn. rewrite app_nil_r, <- !app_assoc. reflexivity. }
  rewrite ST. cbn [obind]. set (s0 := mkX (h ++ [10] ++ [60] ++ n) (Some []) false [n] 1 true).
  assert (R0 : running s0) by (split; cbn; eauto).
  rewrite (at_id s0 R0). cbn [x_names x_depth x_start s0]. fold s0. rewrite saveElementID_at by auto. rewrite (saves_every (S (dsize d)) d) by (auto; lia). cbn [obind].
  unfold resetToFirstElementMark, at_state. cbn [x_second x_first s0 x_names x_depth x_start app]. rewrite saveNamespaces_first. unfold text_of. cbn [x_first x_second]. f_equal.
  unfold document_tree. fold n. destruct (element_tail n (map space_attr (w_spaces W)) d) as (c & id & slots & E & ->). rewrite print_eq. rewrite !flat_map_app. cbn [Z.sub Z.add Z.opp Z.pos_sub]. rewrite <- !app_assoc. cbn [app]. rewrite <- ?app_assoc. reflexivity.
Qed.

(** *** The tree is well formed *)
Lemma cut_no_colon : forall n, ~ In 58 n -> cut n = None.
Proof. induction n as [|c n IH]; intros N; cbn [cut]; auto. destruct (Z.eqb_spec c 58) as [->|]; [exfalso; apply N; cbn; auto|]. rewrite IH; auto. intros I. apply N. cbn. auto. Qed.
Lemma cut_colon : forall p l, ~ In 58 p -> cut (p ++ 58 :: l) = Some (p, l).
Proof. induction p as [|c p IH]; intros l N; cbn [app cut]; auto. destruct (Z.eqb_spec c 58) as [->|]; [exfalso; apply N; cbn; auto|]. rewrite IH; auto. intros I. apply N. cbn. auto. Qed.
Lemma nsname_plain : forall n, ~ In 58 n -> nsname n = Some ([], n).
Proof. intros n N. unfold nsname. rewrite cut_no_colon; auto. Qed.
Lemma no_colon_existsb : forall l, ~ In 58 l -> existsb (Z.eqb 58) l = false.
Proof. intros l N. destruct (existsb (Z.eqb 58) l) eqn:E; auto. apply existsb_exists in E. destruct E as (x & I & E). apply Z.eqb_eq in E. subst. contradiction. Qed.
Lemma nsname_qualified : forall p l, name p -> name l -> ~ In 58 p -> ~ In 58 l -> nsname (p ++ 58 :: l) = Some (p, l).
Proof.
  intros p l [NP _] [NL _] CP CL. unfold nsname. rewrite cut_colon by auto. rewrite no_colon_existsb by auto. destruct p; [congruence|]. destruct l; [congruence|]. auto.
Qed.
Lemma qualified_name : forall q p l, qualified q p l -> wf_name q.
Proof.
  intros q p l (NL & CL & [(-> & -> & _)|(NP & CP & _ & ->)]).
  - split; auto. rewrite nsname_plain by auto. discriminate.
  - split; [|rewrite nsname_qualified by auto; discriminate]. split; [destruct p; discriminate|]. intros c I. apply in_app_or in I. destruct I as [I|[<-|I]]; [apply NP; auto| |apply NL; auto]. cbn. intuition discriminate.
Qed.
Lemma class_name : forall c, class_ok M W c -> wf_name (w_class W c) /\ quoted (w_class W c) (w_class W c).
Proof.
  intros c (_ & p & l & pk & Q & _ & _ & AL & _ & _). pose proof (qualified_name _ _ _ Q) as WN. split; auto. apply chars_plain_quoted. intros x I. split; auto.
  destruct WN as [[_ NS] _]. specialize (NS x I). unfold special in NS. cbn in NS. cbn. intuition.
Qed.
Lemma feature_name : forall c f, feature_ok M op W c f -> wf_name (fname f).
Proof. intros c f FO. destruct (fo_name _ _ _ _ _ FO) as [N C]. split; auto. rewrite nsname_plain by auto. discriminate. Qed.
Lemma idrefs_plain : forall l, (forall k, In k l -> frag_ok W k) -> plain [34] (idrefs_text l).
Proof.
  intros l H x I. unfold idrefs_text in I.
  assert (X : x = 32 \/ x = 35 \/ exists k, In k l /\ In x (w_frag W k)).
  { clear H. induction l as [|k l IH]; [destruct I|]. destruct l as [|k' l]; cbn [map] in *.
    - cbn in I. destruct I as [<-|I]; auto. right. right. exists k. cbn. auto.
    - rewrite join_cons in I by (intros X; discriminate X). apply in_app_or in I. destruct I as [[<-|I]|I]; auto.
      + right. right. exists k. cbn. auto.
      + apply in_app_or in I. destruct I as [[<-|[]]|I]; auto. destruct (IH I) as [E|[E|(k0 & K & E)]]; auto. right. right. exists k0. cbn in *. tauto. }
  destruct X as [->|[->|(k & K & J)]]; try (cbn; intuition discriminate). destruct (H k K) as [P _]. apply P. auto.
Qed.
Lemma name_by : forall n, n <> [] -> forallb (fun c => negb (existsb (Z.eqb c) special)) n = true -> name n.
Proof.
  intros n N H. split; auto. intros c I J. rewrite forallb_forall in H. specialize (H c I). apply negb_true_iff in H. assert (E : existsb (Z.eqb c) special = true) by (apply existsb_exists; exists c; split; auto; apply Z.eqb_refl). congruence.
Qed.
Lemma xsi_type_name : wf_name (lit "xsi:type").
Proof. split; [apply name_by; [discriminate|reflexivity]|discriminate]. Qed.
Lemma href_name : wf_name (lit "href").
Proof. split; [apply name_by; [discriminate|reflexivity]|discriminate]. Qed.

Definition attrs_ok (l : list (str * str * str)) : Prop := forall m raw v, In (m, raw, v) l -> wf_name m /\ quoted raw v.
Lemma attrs_app : forall l l', attrs_ok l -> attrs_ok l' -> attrs_ok (l ++ l').
Proof. intros l l' H H' m raw v I. apply in_app_or in I. destruct I; auto. Qed.
Lemma type_attr_ok : forall b c, class_ok M W c -> attrs_ok (type_attr b c).
Proof. intros b c CO m raw v I. destruct b; [|destruct I]. destruct I as [E|[]]. injection E as <- <- <-. split; [apply xsi_type_name|apply class_name; auto]. Qed.
Lemma id_attr_ok : forall id, (op_manager op = true -> plain [34] id) -> attrs_ok (id_attr id).
Proof.
  intros id P m raw v I. unfold id_attr in I. destruct (op_manager op) eqn:OM; [|destruct I]. destruct I as [E|[]]. injection E as <- <- <-. destruct (proj2 ID OM) as (N & C & _).
  split; [split; auto; rewrite nsname_plain by auto; discriminate|apply chars_plain_quoted; auto].
Qed.
Lemma slot_attrs_ok : forall c f v, fits M op W target c f v -> attrs_ok (slot_attrs (f, v)).
Proof.
  intros c f v H. destruct H as [c f|c f v FO K SH AL|c f l FO K N H KP|c f l FO SH NC ND H|c f l FO SH NC H|c f l FO SH C H]; intros m raw x I; cbn [slot_attrs snd fst] in I; try (destruct I; fail); destruct I as [E|[]]; injection E as <- <- <-;
    (split; [eapply feature_name; eauto|]).
  - apply escape_quoted. auto.
  - apply chars_plain_quoted. apply idrefs_plain. intros k K. apply H. auto.
Qed.
Lemma contents_kids : forall l, (forall t, contents_of l = CText t -> plain_text t) /\ (forall l', contents_of l = CKids l' -> l' = l).
Proof. intros [|x l]; split; intros t E; try discriminate. injection E as <-. auto. Qed.
Lemma href_wf : forall c f x, feature_ok M op W c f -> class_ok M W (fst x) -> plain [34] (snd x) -> wf (href_node f x).
Proof.
  intros c f x FO CO P. unfold href_node. constructor; try discriminate; [eapply feature_name; eauto|]. apply attrs_app; [apply type_attr_ok; auto|].
  intros m raw v [E|[]]. injection E as <- <- <-. split; [apply href_name|apply chars_plain_quoted; auto].
Qed.
Lemma element_wf : forall n d m pre, (dsize d < n)%nat -> valid M op W target d -> wf_name m -> attrs_ok pre -> wf (element m pre d).
Proof.
  induction n as [|n IH]; intros d m pre L VD WN WP; [lia|]. pose proof VD as VD'. destruct VD as [c id slots CO ND PI H]. rewrite element_eq. destruct (contents_kids (flat_map (slot_nodes) slots)) as [CT CK].
  constructor; auto.
  - apply attrs_app; auto. apply attrs_app; [apply id_attr_ok; auto|]. intros k raw v I. apply in_flat_map in I. destruct I as ([f w] & I & J). eapply slot_attrs_ok; eauto.
  - intros l' x E J. rewrite (CK _ E) in J. clear CT CK E l'. apply in_flat_map in J. destruct J as ([f v] & I & J).
    pose proof (H f v I) as F. destruct F as [c f|c f v FO K SH AL|c f l FO K N X KP|c f l FO SH NC Y X|c f l FO SH NC X|c f l FO SH C X]; cbn [slot_nodes snd fst] in J; try (destruct J; fail); apply in_map_iff in J; destruct J as (y & <- & J).
    + constructor; try discriminate; [eapply feature_name; eauto|intros ? ? ? []|]. intros t E. injection E as <-. apply X. auto.
    + eapply href_wf; eauto; destruct y as [c' u]; destruct (X c' u J) as (X1 & X2 & X3 & X4 & _); auto.
    + destruct (X y J) as (_ & _ & VY). apply IH; auto; [pose proof (kid_smaller slots f l y c id I J); lia|eapply feature_name; eauto|]. apply type_attr_ok. inversion VY; subst. auto.
Qed.
Lemma prefix_name : forall p, name p -> ~ In 58 p -> wf_name (lit "xmlns" ++ 58 :: p).
Proof.
  intros p NP CP. assert (NX : name (lit "xmlns")) by (apply name_by; [discriminate|reflexivity]). split.
  - split; [discriminate|]. intros c J. apply in_app_or in J. destruct J as [J|[<-|J]]; [apply NX; auto|cbn; intuition discriminate|apply NP; auto].
  - rewrite nsname_qualified; auto; [discriminate|intros J; vm_compute in J; intuition discriminate].
Qed.
Lemma space_attrs_ok : spaces_ok op W -> attrs_ok (map space_attr (w_spaces W)).
Proof.
  intros SP m raw v I. apply in_map_iff in I. destruct I as ([p u] & E & I). injection E as <- <- <-. split; [|apply chars_plain_quoted; eapply sp_uri; eauto].
  cbn [fst]. destruct (sp_prefix _ _ SP p u I) as [->|[NP CP]].
  - split; [apply name_by; [discriminate|reflexivity]|discriminate].
  - unfold space_attribute. cbn [fst]. destruct p as [|x p]; [destruct NP; congruence|]. apply (prefix_name (x :: p)); auto.
Qed.
Lemma document_wf : forall d, spaces_ok op W -> valid M op W target d -> wf (document_tree d).
Proof.
  intros d SP VD. unfold document_tree. apply (element_wf (S (dsize d))); auto; [|apply space_attrs_ok; auto]. inversion VD as [c id slots CO ND PI H]; subst. cbn [d_class]. apply class_name. auto.
Qed.
End Slots.
End Writing.
