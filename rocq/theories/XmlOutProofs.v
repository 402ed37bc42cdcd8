(** Proofs about the XML writer. *)
From Coq Require Import String.
From Verif Require Import Base Chars XmlOutModel XmlOutSpec.
Open Scope Z_scope.

(** ** Texts *)
Lemma char_data_app : forall x a b, char_data x a -> char_data x b -> char_data x (a ++ b).
Proof.
  intros x a b H1 H2. induction H1; cbn [app]; auto.
  - apply cd_char; auto.
  - rewrite <- !app_assoc. cbn [app]. apply (cd_ref x e (s ++ b)); auto.
Qed.
Lemma char_data_plain : forall x s, (forall c, In c s -> c <> 60 /\ c <> 38 /\ ~ In c x) -> char_data x s.
Proof.
  intros x s. induction s as [|c s IH]; intros H; [constructor|]. destruct (H c) as (H1 & H2 & H3); [cbn; auto|]. apply cd_char; auto. apply IH. intros; apply H; cbn; auto.
Qed.
Lemma white_content : forall s, white s -> char_data [] s.
Proof.
  intros s W. apply char_data_plain. intros c I. specialize (W c I). cbn in W. split; [lia|]. split; [lia|]. auto.
Qed.
Lemma attributes_app : forall a b, attributes a -> attributes b -> attributes (a ++ b).
Proof. intros a b H1 H2. induction H1; auto. rewrite <- !app_assoc. apply at_cons; auto. Qed.
Lemma content_app : forall a b, content a -> content b -> content (a ++ b).
Proof.
  intros a b H1 H2. induction H1; auto; rewrite <- app_assoc; [apply co_text|apply co_element]; auto.
Qed.
Lemma content_text : forall t, char_data [] t -> content t.
Proof. intros t H. rewrite <- (app_nil_r t). apply co_text; auto. constructor. Qed.
Lemma content_white : forall t, white t -> content t.
Proof. intros. apply content_text, white_content. auto. Qed.
Lemma content_element : forall e, element e -> content e.
Proof. intros e H. rewrite <- (app_nil_r e). apply co_element; auto. constructor. Qed.

Lemma white_blanks : forall n, white (repeat 32 n).
Proof. intros n c I. apply repeat_spec in I. subst. cbn. auto. Qed.
Lemma white_line : white [10].
Proof. intros c [<-|[]]. cbn. auto. Qed.

(** names of references *)
Ltac a_name := split; [discriminate|]; let c := fresh in let H := fresh in intros c H; vm_compute in H; repeat (destruct H as [<-|H]; [vm_compute; intuition discriminate|]); destruct H.
Lemma escape_good : forall s, char_data [34] (escape s).
Proof.
  induction s as [|c s IH]; [constructor|]. unfold escape. cbn [flat_map]. apply char_data_app; auto. unfold escape1.
  assert (R : forall e, name e -> char_data [34] ([38] ++ e ++ [59])).
  { intros e N. replace ([38] ++ e ++ [59]) with ([38] ++ e ++ [59] ++ []) by auto. apply cd_ref; auto. constructor. }
  destruct (Z.eqb_spec c 38). { apply (R (lit "amp")). a_name. }
  destruct (Z.eqb_spec c 39). { apply (R (lit "#39")). a_name. }
  destruct (Z.eqb_spec c 60). { apply (R (lit "lt")). a_name. }
  destruct (Z.eqb_spec c 62). { apply (R (lit "gt")). a_name. }
  destruct (Z.eqb_spec c 34). { apply (R (lit "#34")). a_name. }
  destruct (Z.eqb_spec c 13). { apply (R (lit "#13")). a_name. }
  apply cd_char; auto; [|constructor]. cbn. intuition lia.
Qed.

(** ** States *)
(** the text [t] has been added; the names, depth and flag are those given *)
Definition at_state (s : xml) (t : str) (names : list str) (d : Z) (b : bool) : xml :=
  mkX (x_first s) (Some (match x_second s with Some u => u ++ t | None => t end)) false names d b.
Definition running (s : xml) : Prop := x_back s = false /\ exists u, x_second s = Some u.

Lemma add_running : forall s t, running s -> add t s = at_state s t (x_names s) (x_depth s) (x_start s).
Proof. intros s t [B (u & U)]. unfold add, at_state. rewrite U, B. auto. Qed.
Lemma at_running : forall s t n d b, running (at_state s t n d b).
Proof. intros. split; cbn; eauto. Qed.
Lemma at_at : forall s t n d b t' n' d' b', running s -> at_state (at_state s t n d b) t' n' d' b' = at_state s (t ++ t') n' d' b'.
Proof. intros s t n d b t' n' d' b' [B (u & U)]. unfold at_state. cbn. rewrite U, <- app_assoc. auto. Qed.
Lemma at_id : forall s, running s -> s = at_state s [] (x_names s) (x_depth s) (x_start s).
Proof. intros [f s b n d st] [B (u & U)]. cbn in *. subst. unfold at_state. cbn. rewrite app_nil_r. auto. Qed.

Lemma add_at : forall s t n d b t', running s -> add t' (at_state s t n d b) = at_state s (t ++ t') n d b.
Proof. intros. rewrite add_running by apply at_running. cbn [x_names x_depth x_start at_state]. rewrite at_at; auto. Qed.
Lemma addLine_at : forall s t n d b, running s -> addLine (at_state s t n d b) = at_state s (t ++ [10]) n d b.
Proof. intros. apply add_at. auto. Qed.
Lemma set_start_at : forall s t n d b b', set_start b' (at_state s t n d b) = at_state s t n d b'.
Proof. reflexivity. Qed.
Lemma set_depth_at : forall s t n d b d', set_depth d' (at_state s t n d b) = at_state s t n d' b.
Proof. reflexivity. Qed.
Lemma set_names_at : forall s t n d b n', set_names n' (at_state s t n d b) = at_state s t n' d b.
Proof. reflexivity. Qed.
Lemma depth_at : forall s t n d b, x_depth (at_state s t n d b) = d.
Proof. reflexivity. Qed.
Lemma names_at : forall s t n d b, x_names (at_state s t n d b) = n.
Proof. reflexivity. Qed.
Lemma start_at : forall s t n d b, x_start (at_state s t n d b) = b.
Proof. reflexivity. Qed.
Lemma mark_at : forall s t n d b, mark (at_state s t n d b) = at_state s t n d b.
Proof. reflexivity. Qed.
Lemma indent_at : forall s t n d b e, 0 <= d + e - 1 -> indent e (at_state s t n d b) = Some (repeat 32 (2 * Z.to_nat (d + e - 1))%nat).
Proof. intros. unfold indent. rewrite depth_at. destruct (Z.ltb_spec (d + e - 1) 0); auto. lia. Qed.

(** what closes a start tag *)
Definition closing (b : bool) : str := if b then [62; 10] else [].
Lemma close_at : forall s t n d b, running s -> close_if_start (at_state s t n d b) = at_state s (t ++ closing b) n d false.
Proof.
  intros s t n d b R. unfold close_if_start, closeStartElement. rewrite start_at. destruct b; cbn [closing].
  - rewrite add_at, addLine_at by auto. rewrite set_start_at, <- app_assoc. auto.
  - rewrite app_nil_r. auto.
Qed.

Ltac at_norm := repeat first [rewrite add_at by auto | rewrite addLine_at by auto | rewrite set_start_at | rewrite set_depth_at | rewrite set_names_at | rewrite depth_at | rewrite names_at | rewrite start_at | rewrite mark_at | rewrite close_at by auto].

Lemma zlen_name : forall n, name n -> (zlen n >? 0) = true.
Proof. intros n [N _]. destruct n; [congruence|]. rewrite zlen_cons. pose proof (zlen_nonneg n). destruct (Z.gtb_spec (1 + zlen n) 0); auto. lia. Qed.
Lemma name_not_nil : forall n, name n -> str_eqb n [] = false.
Proof. intros n [N _]. apply str_eqb_neq. auto. Qed.

Definition blanks (d : Z) : str := repeat 32 (2 * Z.to_nat d)%nat.
Lemma startElement_at : forall n s t ns d b, running s -> name n -> 0 <= d ->
  startElement n (at_state s t ns d b) = Some (at_state s (t ++ closing b ++ blanks d ++ [60] ++ n) (n :: ns) (d + 1) true).
Proof.
  intros n s t ns d b R N D. unfold startElement. at_norm. rewrite zlen_name by auto. at_norm. rewrite indent_at by lia. cbn [obind]. at_norm.
  rewrite <- !app_assoc. unfold blanks. replace (d + 1 + 0 - 1) with d by lia. auto.
Qed.
Lemma endEmpty_at : forall n s t ns d b, running s -> name n ->
  endEmptyElement (at_state s t (n :: ns) d b) = Some (at_state s (t ++ [47; 62; 10]) ns (d - 1) false).
Proof.
  intros n s t ns d b R N. unfold endEmptyElement, removeLast. at_norm. rewrite name_not_nil by auto. cbn [obind snd]. at_norm. rewrite <- app_assoc. auto.
Qed.
Lemma endElement_at : forall n s t ns d b, running s -> name n -> 1 <= d ->
  endElement (at_state s t (n :: ns) d b) = Some (at_state s (t ++ if b then [47; 62; 10] else blanks (d - 1) ++ [60; 47] ++ n ++ [62; 10]) ns (d - 1) false).
Proof.
  intros n s t ns d b R N D. unfold endElement. rewrite start_at. destruct b; [apply endEmpty_at; auto|].
  unfold removeLast. at_norm. rewrite name_not_nil by auto. cbn [obind]. at_norm. rewrite name_not_nil by auto. rewrite indent_at by lia. cbn [obind]. at_norm.
  rewrite <- !app_assoc. unfold blanks. replace (d - 1 + 1 - 1) with (d - 1) by lia. auto.
Qed.
Definition attribute (n v : str) : str := [32] ++ n ++ [61; 34] ++ v ++ [34].
Lemma addAttribute_at : forall n v s t ns d b, running s -> addAttribute n v (at_state s t ns d b) = at_state s (t ++ attribute n v) ns d b.
Proof. intros. unfold addAttribute. at_norm. unfold attribute. rewrite <- !app_assoc. auto. Qed.
Lemma attribute_good : forall n v, name n -> char_data [34] v -> attributes (attribute n v).
Proof.
  intros n v N V. unfold attribute. change [32] with (repeat 32 1) at 1. replace (repeat 32 1 ++ n ++ [61; 34] ++ v ++ [34]) with (repeat 32 1 ++ n ++ lit "=""" ++ v ++ lit """" ++ []) by reflexivity.
  apply at_cons; auto; [discriminate|apply white_blanks|constructor].
Qed.
Lemma addNil_at : forall n s t ns d b, running s -> name n -> 0 <= d ->
  addNil n (at_state s t ns d b) = Some (at_state s (t ++ closing b ++ blanks d ++ ([60] ++ n ++ attribute (lit "xsi:nil") (lit "true") ++ [47; 62]) ++ [10]) ns d false).
Proof.
  intros n s t ns d b R N D. unfold addNil. at_norm. rewrite indent_at by lia. cbn [obind]. at_norm. rewrite <- !app_assoc. unfold blanks.
  replace (d + 1 + 0 - 1) with d by lia. replace (d + 1 - 1) with d by lia. reflexivity.
Qed.
Lemma addContent_at : forall n c s t ns d b, running s -> name n -> 0 <= d ->
  addContent n c (at_state s t ns d b) = Some (at_state s (t ++ closing b ++ blanks d ++ ([60] ++ n ++ [62] ++ c ++ [60; 47] ++ n ++ [62]) ++ [10]) ns d false).
Proof.
  intros n c s t ns d b R N D. unfold addContent. at_norm. rewrite indent_at by lia. cbn [obind]. at_norm. rewrite <- !app_assoc. unfold blanks.
  replace (d + 1 + 0 - 1) with d by lia. replace (d + 1 - 1) with d by lia. reflexivity.
Qed.

(** ** Attributes *)
Definition writes_attributes (s : xml) (P : xml -> option xml) : Prop :=
  forall t ns d b, exists a, attributes a /\ P (at_state s t ns d b) = Some (at_state s (t ++ a) ns d b).

Lemma idrefs_good : forall l failure buffer, l <> [] -> (forall x, In x l -> exists t, x = Some t /\ char_data [34] (t_idref t)) -> char_data [34] buffer ->
  exists f b, idrefs l failure buffer = Some (f, b) /\ char_data [34] b.
Proof.
  induction l as [|x l IH]; intros failure buffer NE H B; [congruence|]. destruct (H x) as (t & -> & T); [cbn; auto|]. cbn [idrefs].
  destruct (str_eqb (t_idref t) []).
  - destruct l as [|y l]; [eauto|]. apply IH; auto; [discriminate|]. intros z Hz. apply H. cbn in *. auto.
  - destruct l as [|y l]; [do 2 eexists; split; [reflexivity|apply char_data_app; auto]|]. apply IH; auto; [discriminate| |].
    + intros z Hz. apply H. cbn in *. auto.
    + apply char_data_app; auto. apply char_data_app; auto. apply cd_char; [lia|lia|cbn; intuition lia|constructor].
Qed.
Lemma refs_same_some : forall l, resource_kind_refs l = RSame -> forall x, In x l -> exists t, x = Some t.
Proof.
  induction l as [|[t|] l IH]; intros H x I; cbn in H; [destruct I| |discriminate].
  destruct (t_proxy t); [discriminate|]. destruct I as [<-|I]; [eauto|]. destruct (t_place t); try discriminate; eapply IH; eauto.
Qed.

Lemma save_attribute_ok : forall f set v s t ns d b, running s -> good_slot f v ->
  exists a e, attributes a /\ save_attribute f set v (at_state s t ns d b) = Some (at_state s (t ++ a) ns d b, e).
Proof.
  intros f set v s t ns d b R [N G].
  assert (NO : forall e : bool, exists a e', attributes a /\ Some (at_state s t ns d b, e) = Some (at_state s (t ++ a) ns d b, e')).
  { intros e. exists [], e. rewrite app_nil_r. split; [constructor|auto]. }
  assert (AT : forall x (e : bool), char_data [34] x -> exists a e', attributes a /\ Some (addAttribute (f_name f) x (at_state s t ns d b), e) = Some (at_state s (t ++ a) ns d b, e')).
  { intros x e X. exists (attribute (f_name f) x), e. rewrite addAttribute_at by auto. split; auto. apply attribute_good; auto. }
  assert (ATN : forall e : bool, exists a e', attributes a /\ Some (addAttribute (f_name f) [] (at_state s t ns d b), e) = Some (at_state s (t ++ a) ns d b, e')) by (intros; apply AT; constructor).
  unfold save_attribute, getSaveFeatureKind.
  destruct (f_transient f); [apply NO|]. destruct (f_reference f).
  - destruct (f_containment f).
    + destruct (f_many f).
      * destruct G as (os & ->). destruct (f_unsettable f); destruct set; cbn [negb]; try apply NO. cbn [isEmpty obind]. destruct os; [apply ATN|apply NO].
      * destruct (f_unsettable f); destruct set; cbn [negb]; apply NO.
    + destruct (f_container f); [apply NO|]. destruct (f_many f).
      * destruct G as (ts & -> & GT).
        assert (MANY : exists a e, attributes a /\ match resource_kind_many (VRefs ts) with RSkip => Some (at_state s t ns d b, false) | RSame => let? s' := saveIDRefMany f (VRefs ts) (at_state s t ns d b) in Some (s', false) | RCross => Some (at_state s t ns d b, true) end = Some (at_state s (t ++ a) ns d b, e)).
        { destruct (resource_kind_many (VRefs ts)) eqn:K; try apply NO. cbn [resource_kind_many] in K. destruct ts as [|x ts]; [discriminate|].
          destruct (idrefs_good (x :: ts) false []) as (fl & bf & E & B).
          - discriminate.
          - intros y I. destruct (refs_same_some _ K y I) as (t' & ->). exists t'. split; auto. apply GT in I. apply I.
          - constructor.
          - unfold saveIDRefMany. rewrite E. cbn [obind]. destruct (negb fl && (zlen bf >? 0)); [apply AT; auto|apply NO]. }
        destruct (f_unsettable f); destruct set; cbn [negb]; try apply NO; auto. cbn [isEmpty obind]. destruct ts; [apply ATN|exact MANY].
      * assert (ONE : exists a e, attributes a /\ match resource_kind_single v with RSkip => Some (at_state s t ns d b, false) | RSame => Some (saveIDRefSingle f v (at_state s t ns d b), false) | RCross => Some (at_state s t ns d b, true) end = Some (at_state s (t ++ a) ns d b, e)).
        { destruct G as [->|(t' & -> & GT)]; [apply NO|]. destruct (resource_kind_single (VRef t')); try apply NO. cbn [saveIDRefSingle]. destruct (str_eqb (t_idref t') []); [apply NO|apply AT; apply GT]. }
        destruct (f_unsettable f); destruct set; cbn [negb]; try apply NO; auto. destruct (isNil v); [apply NO|exact ONE].
  - destruct (f_serializable f); cbn [negb]; [|apply NO]. destruct (f_many f).
    + destruct G as (ts & -> & GT). destruct set; cbn [negb]; [|apply NO]. cbn [isEmpty obind]. destruct ts; [apply ATN|apply NO].
    + destruct G as [->|(t' & ->)]; destruct (f_unsettable f); destruct set; cbn [negb isNil saveDataTypeSingle obind]; try apply NO; apply AT, escape_good.
Qed.

Lemma save_attributes_ok : forall l s t ns d b, running s -> (forall f set v, In (mkS f set v) l -> good_slot f v) ->
  exists a sel, attributes a /\ save_attributes l (at_state s t ns d b) = Some (at_state s (t ++ a) ns d b, sel) /\ length sel = length l.
Proof.
  induction l as [|[f set v] l IH]; intros s t ns d b R G; cbn [save_attributes].
  - exists [], []. rewrite app_nil_r. split; [constructor|auto].
  - destruct (save_attribute_ok f set v s t ns d b R) as (a & e & A & E); [eapply G; cbn; eauto|]. rewrite E. cbn [obind].
    destruct (IH s (t ++ a) ns d b R) as (a' & sel & A' & E' & L); [intros; eapply G; cbn; eauto|]. rewrite E'. cbn [obind fst snd].
    exists (a ++ a'), (e :: sel). split; [apply attributes_app; auto|]. rewrite app_assoc. split; auto. cbn. auto.
Qed.

(** ** Elements *)
(** writes nothing, or closes the start tag and writes content *)
Definition piece (b b' : bool) (t : str) : Prop := (b' = b /\ t = []) \/ (b' = false /\ exists c, content c /\ t = closing b ++ c).
Definition writes (s : xml) (P : xml -> option xml) : Prop :=
  forall t ns d b, 1 <= d -> exists b' t', piece b b' t' /\ P (at_state s t ns d b) = Some (at_state s (t ++ t') ns d b').

Lemma piece_app : forall b1 b2 b3 t1 t2, piece b1 b2 t1 -> piece b2 b3 t2 -> piece b1 b3 (t1 ++ t2).
Proof.
  intros b1 b2 b3 t1 t2 [[-> ->]|(-> & c & C & ->)] H; [exact H|]. right. destruct H as [[-> ->]|(-> & c2 & C2 & ->)].
  - split; auto. exists c. rewrite app_nil_r. auto.
  - split; auto. exists (c ++ c2). cbn [closing app]. rewrite <- app_assoc. split; auto. apply content_app; auto.
Qed.
Lemma piece_element : forall b d e, element e -> piece b false (closing b ++ blanks d ++ e ++ [10]).
Proof.
  intros b d e E. right. split; auto. eexists. split; [|reflexivity].
  apply content_app; [apply content_white, white_blanks|]. apply content_app; [apply content_element; auto|apply content_white, white_line].
Qed.

Lemma addNil_ok : forall n s, running s -> name n -> writes s (addNil n).
Proof.
  intros n s R N t ns d b D. rewrite addNil_at by (auto; lia). eexists _, _. split; [|reflexivity]. apply piece_element.
  apply (el_empty n (attribute (lit "xsi:nil") (lit "true"))); auto. apply attribute_good.
  - a_name.
  - apply char_data_plain. intros c I. vm_compute in I. repeat (destruct I as [<-|I]; [vm_compute; intuition discriminate|]). destruct I.
Qed.
Lemma addContent_ok : forall n c s, running s -> name n -> char_data [] c -> writes s (addContent n c).
Proof.
  intros n c s R N C t ns d b D. rewrite addContent_at by (auto; lia). eexists _, _. split; [|reflexivity]. apply piece_element.
  apply (el_full n [] c); auto; [constructor|apply content_text; auto].
Qed.

(** an element opened, attributes, and closed at once *)
Lemma empty_element_ok : forall n s (attrs : xml -> xml), running s -> name n ->
  (forall t ns d b, exists a, attributes a /\ attrs (at_state s t ns d b) = at_state s (t ++ a) ns d b) ->
  writes s (fun s => let? s := startElement n s in endEmptyElement (attrs s)).
Proof.
  intros n s attrs R N A t ns d b D. rewrite startElement_at by (auto; lia). cbn [obind].
  destruct (A (t ++ closing b ++ blanks d ++ [60] ++ n) (n :: ns) (d + 1) true) as (a & GA & E). rewrite E. rewrite endEmpty_at by auto.
  replace (d + 1 - 1) with d by lia. exists false, (closing b ++ blanks d ++ ([60] ++ n ++ a ++ [47; 62]) ++ [10]). split.
  - apply piece_element. apply (el_empty n a); auto.
  - rewrite <- !app_assoc. reflexivity.
Qed.

Lemma saveHRef_ok : forall f t' s, running s -> name (f_name f) -> good_target t' -> writes s (saveHRef f t').
Proof.
  intros f t' s R N (G1 & G2 & G3 & G4). unfold saveHRef. destruct (str_eqb (t_href t') []).
  - intros t ns d b D. exists b, []. rewrite app_nil_r. split; [left; auto|auto].
  - apply (empty_element_ok (f_name f) s (fun s => addAttribute (lit "href") (t_href t') (if negb (str_eqb (f_type f) (t_class t')) && f_abstract f then saveTypeAttribute (t_class t') s else s))); auto.
    intros t ns d b. assert (H : attributes (attribute (lit "href") (t_href t'))) by (apply attribute_good; auto; a_name).
    destruct (negb (str_eqb (f_type f) (t_class t')) && f_abstract f).
    + unfold saveTypeAttribute. rewrite !addAttribute_at by auto. eexists. split; [|rewrite <- app_assoc; reflexivity].
      apply attributes_app; auto. apply attribute_good; auto. a_name.
    + rewrite addAttribute_at by auto. eauto.
Qed.
Lemma writes_seq : forall s P Q, writes s P -> writes s Q -> writes s (fun x => let? y := P x in Q y).
Proof.
  intros s P Q HP HQ t ns d b D. destruct (HP t ns d b D) as (b1 & t1 & P1 & E1). rewrite E1. cbn [obind].
  destruct (HQ (t ++ t1) ns d b1 D) as (b2 & t2 & P2 & E2). rewrite E2. exists b2, (t1 ++ t2). rewrite app_assoc. split; auto. eapply piece_app; eauto.
Qed.
Lemma writes_none : forall s, writes s Some.
Proof. intros s t ns d b D. exists b, []. rewrite app_nil_r. split; [left; auto|auto]. Qed.

Lemma saveHRefs_ok : forall f l s, running s -> name (f_name f) -> (forall t, In (Some t) l -> good_target t) -> writes s (saveHRefs f l).
Proof.
  intros f l s R N. induction l as [|[t'|] l IH]; intros G; cbn [saveHRefs].
  - apply writes_none.
  - apply (writes_seq s (saveHRef f t') (saveHRefs f l)); [apply saveHRef_ok; auto; apply G; cbn; auto|apply IH; intros; apply G; cbn; auto].
  - apply IH. intros; apply G; cbn; auto.
Qed.
Lemma saveDataTypeMany_ok : forall f l s, running s -> name (f_name f) -> (forall t, In (Some t) l -> char_data [] t) -> writes s (saveDataTypeMany f l).
Proof.
  intros f l s R N. induction l as [|[t'|] l IH]; intros G; cbn [saveDataTypeMany].
  - apply writes_none.
  - apply (writes_seq s (addContent (f_name f) t') (saveDataTypeMany f l)); [apply addContent_ok; auto; apply G; cbn; auto|apply IH; intros; apply G; cbn; auto].
  - intros t ns d b D.
    pose proof (writes_seq s (fun s => let? s := startElement (f_name f) s in endEmptyElement (addAttribute (lit "xsi:nil") (lit "true") s)) (saveDataTypeMany f l)) as W.
    destruct (W) with (t := t) (ns := ns) (d := d) (b := b) as (b' & t1 & P1 & E1); auto.
    + apply empty_element_ok; auto. intros t0 ns0 d0 b0. rewrite addAttribute_at by auto. eexists. split; [|reflexivity]. apply attribute_good; [a_name|].
      apply char_data_plain. intros c I. vm_compute in I. repeat (destruct I as [<-|I]; [vm_compute; intuition discriminate|]). destruct I.
    + apply IH. intros; apply G; cbn; auto.
    + exists b', t1. split; auto. rewrite <- E1. destruct (startElement (f_name f) (at_state s t ns d b)); auto.
Qed.

(** ** Objects *)
Section Loops.
Context (attr : str).
Definition saveInternal (o' : obj) (f : feature) (s : xml) : option xml :=
  let t := o_target o' in
  if t_direct t || t_proxy t then saveHRef f t s
  else
    let? s := startElement (f_name f) s in
    let s := if negb (str_eqb (f_type f) (t_class t)) && negb (f_any f) then saveTypeAttribute (t_class t) s else s in
    saveFeatures attr o' (saveElementID attr t s).
Section Children.
Context (f : feature).
Fixpoint children (os : list (option obj)) (s : xml) : option xml :=
  match os with
  | [] => Some s
  | None :: os' => children os' s
  | Some o' :: os' => let? s := saveInternal o' f s in children os' s
  end.
End Children.
Definition one_element (f : feature) (v : value) (s : xml) : option xml :=
  match getSaveFeatureKind f, v with
  | DataTypeSingleNillable, _ => addNil (f_name f) s
  | DataTypeMany, VDatas texts => saveDataTypeMany f texts s
  | ContainSingleUnsettable, VNil => addNil (f_name f) s
  | ContainSingleUnsettable, VChild o' | ContainSingle, VChild o' => saveInternal o' f s
  | ContainSingleUnsettable, _ | ContainSingle, _ => Some s
  | ContainManyUnsettable, VChildren os | ContainMany, VChildren os => children f os s
  | HrefSingleUnsettable, VNil => addNil (f_name f) s
  | HrefSingleUnsettable, VRef t | HrefSingle, VRef t => saveHRef f t s
  | HrefSingleUnsettable, _ | HrefSingle, _ => Some s
  | HrefManyUnsettable, VRefs ts | HrefMany, VRefs ts => saveHRefs f ts s
  | _, _ => None
  end.
Fixpoint elements (l : list slot) (sel : list bool) (s : xml) : option xml :=
  match l with
  | [] => Some s
  | mkS f _ v :: l' =>
      match sel with
      | [] => Some s
      | false :: sel' => elements l' sel' s
      | true :: sel' => let? s := one_element f v s in elements l' sel' s
      end
  end.
End Loops.
Lemma saveFeatures_eq : forall attr t slots s,
  saveFeatures attr (mkO t slots) s =
  (let? r := save_attributes slots s in
   let '(s, selected) := r in
   if negb (existsb (fun b => b) selected) then endEmptyElement s
   else let? s := elements attr slots selected s in endElement s).
Proof. reflexivity. Qed.

(** the text which ends an element named [n] after "<n" *)
Definition ends (n t : str) : Prop := exists a, attributes a /\ (t = a ++ [47; 62; 10] \/ exists c, content c /\ t = a ++ [62] ++ c ++ [60; 47] ++ n ++ [62; 10]).
Lemma ends_element : forall n a t, name n -> attributes a -> ends n t -> exists e, element e /\ [60] ++ n ++ a ++ t = e ++ [10].
Proof.
  intros n a t N A (a' & A' & [->|(c & C & ->)]).
  - exists (lit "<" ++ n ++ (a ++ a') ++ lit "/>"). split; [apply el_empty; auto; apply attributes_app; auto|]. rewrite <- !app_assoc. reflexivity.
  - exists (lit "<" ++ n ++ (a ++ a') ++ lit ">" ++ c ++ lit "</" ++ n ++ lit ">"). split; [apply el_full; auto; apply attributes_app; auto|]. rewrite <- !app_assoc. reflexivity.
Qed.

Definition saves (attr : str) (o : obj) : Prop := forall s t n ns d, running s -> name n -> 1 <= d ->
  exists t', ends n t' /\ saveFeatures attr o (at_state s t (n :: ns) d true) = Some (at_state s (t ++ t') ns (d - 1) false).

Lemma saveElementID_ok : forall attr t' s t ns d b, running s -> (attr = [] \/ name attr) -> good_target t' ->
  exists a, attributes a /\ saveElementID attr t' (at_state s t ns d b) = at_state s (t ++ a) ns d b.
Proof.
  intros attr t' s t ns d b R A (G1 & G2 & G3 & G4). unfold saveElementID. destruct (t_id t') as [id|].
  - destruct (zlen attr >? 0) eqn:Z.
    + rewrite addAttribute_at by auto. eexists. split; [|reflexivity]. apply attribute_good; auto. destruct A as [->|A]; auto. discriminate.
    + exists []. rewrite app_nil_r. split; [constructor|auto].
  - exists []. rewrite app_nil_r. split; [constructor|auto].
Qed.

Lemma good_target_of : forall o, good o -> good_target (o_target o).
Proof. intros o G. inversion G; subst; auto. Qed.

Lemma saveInternal_ok : forall attr o f s, running s -> (attr = [] \/ name attr) -> name (f_name f) -> good o -> saves attr o -> writes s (saveInternal attr o f).
Proof.
  intros attr o f s R A N G S. unfold saveInternal. pose proof (good_target_of o G) as GT.
  destruct (t_direct (o_target o) || t_proxy (o_target o)); [apply saveHRef_ok; auto|].
  intros t ns d b D. rewrite startElement_at by (auto; lia). cbn [obind].
  assert (TY : exists a, attributes a /\ forall t0 ns0 d0 b0, (if negb (str_eqb (f_type f) (t_class (o_target o))) && negb (f_any f) then saveTypeAttribute (t_class (o_target o)) (at_state s t0 ns0 d0 b0) else at_state s t0 ns0 d0 b0) = at_state s (t0 ++ a) ns0 d0 b0).
  { destruct (negb (str_eqb (f_type f) (t_class (o_target o))) && negb (f_any f)).
    - exists (attribute (lit "xsi:type") (t_class (o_target o))). split; [apply attribute_good; [a_name|exact (proj1 GT)]|]. intros. apply addAttribute_at; auto.
    - exists []. split; [constructor|]. intros. rewrite app_nil_r. auto. }
  destruct TY as (a1 & A1 & E1). rewrite E1.
  destruct (saveElementID_ok attr (o_target o) s ((t ++ closing b ++ blanks d ++ [60] ++ f_name f) ++ a1) (f_name f :: ns) (d + 1) true R A GT) as (a2 & A2 & E2). rewrite E2.
  destruct (S s (((t ++ closing b ++ blanks d ++ [60] ++ f_name f) ++ a1) ++ a2) (f_name f) ns (d + 1) R N) as (t' & EN & E3); [lia|]. rewrite E3.
  destruct (ends_element (f_name f) (a1 ++ a2) t') as (e & EL & EQ); auto; [apply attributes_app; auto|].
  exists false, (closing b ++ blanks d ++ e ++ [10]). split; [apply piece_element; auto|].
  replace (d + 1 - 1) with d by lia. rewrite <- EQ. rewrite <- !app_assoc. auto.
Qed.

Lemma children_ok : forall attr f os s, running s -> (attr = [] \/ name attr) -> name (f_name f) ->
  (forall o, In (Some o) os -> good o /\ saves attr o) -> writes s (children attr f os).
Proof.
  intros attr f os s R A N. induction os as [|[o|] os IH]; intros G; cbn [children].
  - apply writes_none.
  - apply (writes_seq s (saveInternal attr o f) (children attr f os)).
    + destruct (G o) as [G1 G2]; [cbn; auto|]. apply saveInternal_ok; auto.
    + apply IH. intros; apply G; cbn; auto.
  - apply IH. intros; apply G; cbn; auto.
Qed.

Lemma one_element_ok : forall attr f v s, running s -> (attr = [] \/ name attr) -> good_slot f v -> getSaveFeatureKind f <> Transient -> getSaveFeatureKind f <> DataTypeSingle ->
  (forall o, v = VChild o -> good o /\ saves attr o) -> (forall os o, v = VChildren os -> In (Some o) os -> good o /\ saves attr o) ->
  writes s (one_element attr f v).
Proof.
  intros attr f v s R A [N G] K1 K2 H1 H2. unfold one_element. revert K1 K2. unfold getSaveFeatureKind.
  destruct (f_transient f); [intros K; congruence|]. destruct (f_reference f).
  - destruct (f_containment f).
    + destruct (f_many f).
      * destruct G as (os & ->). intros _ _. destruct (f_unsettable f); apply children_ok; auto; intros; eapply H2; eauto.
      * intros _ _. destruct G as [->|(o & ->)].
        -- destruct (f_unsettable f); [apply addNil_ok; auto|apply writes_none].
        -- destruct (H1 o eq_refl) as [G1 G2]. destruct (f_unsettable f); apply saveInternal_ok; auto.
    + destruct (f_container f); [intros K; congruence|]. intros _ _. destruct (f_many f).
      * destruct G as (ts & -> & GT). destruct (f_unsettable f); apply saveHRefs_ok; auto.
      * destruct G as [->|(t & -> & GT)].
        -- destruct (f_unsettable f); [apply addNil_ok; auto|apply writes_none].
        -- destruct (f_unsettable f); apply saveHRef_ok; auto.
  - destruct (negb (f_serializable f)); [intros K; congruence|]. destruct (f_many f).
    + intros _ _. destruct G as (ts & -> & GT). apply saveDataTypeMany_ok; auto.
    + destruct (f_unsettable f); [|intros _ K; congruence]. intros _ _. apply addNil_ok; auto.
Qed.

(** the first loop never selects these *)
Lemma selected_kind : forall f set v s s', save_attribute f set v s = Some (s', true) -> getSaveFeatureKind f <> Transient /\ getSaveFeatureKind f <> DataTypeSingle.
Proof.
  intros f set v s s' H. unfold save_attribute in H. split; intros K; rewrite K in H; [discriminate|].
  destruct (negb set); [discriminate|]. destruct (saveDataTypeSingle f v s); discriminate.
Qed.
Fixpoint agree (l : list slot) (sel : list bool) : Prop :=
  match l, sel with
  | mkS f _ v :: l', b :: sel' => (b = true -> getSaveFeatureKind f <> Transient /\ getSaveFeatureKind f <> DataTypeSingle) /\ agree l' sel'
  | _, _ => True
  end.
Lemma save_attributes_agree : forall l s s' sel, save_attributes l s = Some (s', sel) -> agree l sel.
Proof.
  induction l as [|[f set v] l IH]; intros s s' sel H; cbn [save_attributes] in H; [cbn; auto|].
  destruct (save_attribute f set v s) as [[s1 b]|] eqn:E; [|discriminate]. cbn [obind] in H. destruct (save_attributes l s1) as [[s2 sel2]|] eqn:E2; [|discriminate].
  cbn [obind fst snd] in H. injection H as <- <-. cbn. split; [|eapply IH; eauto]. intros ->. eapply selected_kind; eauto.
Qed.

Lemma elements_ok : forall attr l sel s, running s -> (attr = [] \/ name attr) -> agree l sel ->
  (forall f b v, In (mkS f b v) l -> good_slot f v) ->
  (forall f b o, In (mkS f b (VChild o)) l -> good o /\ saves attr o) ->
  (forall f b os o, In (mkS f b (VChildren os)) l -> In (Some o) os -> good o /\ saves attr o) ->
  writes s (elements attr l sel).
Proof.
  intros attr l. induction l as [|[f set v] l IH]; intros sel s R A AG G1 G2 G3; cbn [elements]; [apply writes_none|].
  destruct sel as [|b sel]; [apply writes_none|]. cbn [agree] in AG. destruct AG as [K AG].
  assert (W : writes s (elements attr l sel)) by (apply IH; auto; intros; [eapply G1|eapply G2|eapply G3]; cbn; eauto).
  destruct b; auto. destruct (K eq_refl) as [K1 K2].
  apply (writes_seq s (one_element attr f v) (elements attr l sel)); auto.
  apply one_element_ok; auto.
  - eapply G1; cbn; eauto.
  - intros o ->. eapply G2; cbn; eauto.
  - intros os o -> I. eapply G3; cbn; eauto.
Qed.

Lemma saves_all : forall attr o, (attr = [] \/ name attr) -> good o -> saves attr o.
Proof.
  intros attr o A G. induction G as [t slots GT GS G1 IH1 G2 IH2]. intros s tx n ns d R N D. rewrite saveFeatures_eq.
  destruct (save_attributes_ok slots s tx (n :: ns) d true R GS) as (a & sel & GA & E & L). rewrite E. cbn [obind].
  destruct (existsb (fun b => b) sel) eqn:EX; cbn [negb].
  - pose proof (save_attributes_agree _ _ _ _ E) as AG.
    destruct (elements_ok attr slots sel s R A AG GS) with (t := tx ++ a) (ns := n :: ns) (d := d) (b := true) as (b' & t' & P & E'); auto.
    { intros f b o I. split; eauto. }
    { intros f b os o I1 I2. split; eauto. }
    rewrite E'. cbn [obind]. rewrite endElement_at by auto. destruct P as [[-> ->]|(-> & c & C & ->)].
    + exists (a ++ [47; 62; 10]). split; [exists a; auto|]. rewrite app_nil_r, <- !app_assoc. auto.
    + exists (a ++ [62] ++ ([10] ++ c ++ blanks (d - 1)) ++ [60; 47] ++ n ++ [62; 10]). split.
      * exists a. split; auto. right. eexists. split; [|reflexivity]. apply content_app; [apply content_white, white_line|]. apply content_app; auto. apply content_white, white_blanks.
      * cbn [closing]. rewrite <- !app_assoc. auto.
  - rewrite endEmpty_at by auto. exists (a ++ [47; 62; 10]). split; [exists a; auto|]. rewrite <- !app_assoc. auto.
Qed.

(** ** Documents *)
Lemma saveNamespaces_back : forall l s u, x_second s = Some u -> x_back s = true -> (forall n v, In (n, v) l -> name n /\ char_data [34] v) ->
  exists a, attributes a /\ text_of (saveNamespaces l s) = x_first s ++ a ++ u.
Proof.
  induction l as [|[n v] l IH]; intros s u U B H; cbn [saveNamespaces].
  - exists []. split; [constructor|]. unfold text_of. rewrite U. auto.
  - assert (AD : forall t s, x_second s = Some u -> x_back s = true -> x_first (add t s) = x_first s ++ t /\ x_second (add t s) = Some u /\ x_back (add t s) = true).
    { intros t0 s0 U0 B0. unfold add. rewrite U0, B0. cbn. auto. }
    assert (AA : x_first (addAttribute n v s) = x_first s ++ attribute n v /\ x_second (addAttribute n v s) = Some u /\ x_back (addAttribute n v s) = true).
    { unfold addAttribute.
      destruct (AD [32] s) as (F1 & U1 & B1); auto. set (s1 := add [32] s) in *.
      destruct (AD n s1) as (F2 & U2 & B2); auto. set (s2 := add n s1) in *.
      destruct (AD [61; 34] s2) as (F3 & U3 & B3); auto. set (s3 := add [61; 34] s2) in *.
      destruct (AD v s3) as (F4 & U4 & B4); auto. set (s4 := add v s3) in *.
      destruct (AD [34] s4) as (F5 & U5 & B5); auto. split; [|auto]. rewrite F5, F4, F3, F2, F1. unfold attribute. rewrite <- !app_assoc. auto. }
    destruct AA as (F & U' & B'). destruct (IH (addAttribute n v s) u U' B') as (a & A & E); [intros; apply H; cbn; auto|].
    exists (attribute n v ++ a). split; [apply attributes_app; auto; destruct (H n v) as [H1 H2]; [cbn; auto|]; apply attribute_good; auto|].
    rewrite E, F, <- !app_assoc. auto.
Qed.

Lemma document_ok : forall version encoding attr n namespaces o,
  char_data [34] version -> char_data [34] encoding -> (attr = [] \/ name attr) -> name n ->
  (forall p u, In (p, u) namespaces -> name p /\ char_data [34] u) -> good o ->
  exists out, encodeTopObject version encoding attr (Some n) namespaces o = Some out /\ document out.
Proof.
  intros version encoding attr n namespaces o V E A N NS G. unfold encodeTopObject, saveTopObject.
  set (h := lit "<?xml version=""" ++ version ++ lit """ encoding=""" ++ encoding ++ lit """?>").
  assert (H0 : saveHeader version encoding newXml = mkX (h ++ [10]) None false [] 0 false) by reflexivity.
  rewrite H0.
  assert (ST : startElement n (mkX (h ++ [10]) None false [] 0 false) = Some (mkX (h ++ [10] ++ [60] ++ n) (Some []) false [n] 1 true)).
  { unfold startElement, close_if_start. cbn [x_start]. cbv zeta. rewrite zlen_name by auto. cbn. rewrite app_nil_r, <- !app_assoc. reflexivity. }
  rewrite ST. cbn [obind]. set (s0 := mkX (h ++ [10] ++ [60] ++ n) (Some []) false [n] 1 true).
  assert (R0 : running s0) by (split; cbn; eauto).
  pose proof (good_target_of o G) as GT.
  rewrite (at_id s0 R0). cbn [x_names x_depth x_start s0].
  destruct (saveElementID_ok attr (o_target o) s0 [] [n] 1 true R0 A GT) as (a1 & A1 & E1). unfold s0 in E1 at 1. fold s0 in E1. cbn [x_names x_depth x_start] in *. rewrite E1.
  destruct (saves_all attr o A G s0 ([] ++ a1) n [] 1 R0 N) as (t' & EN & E2); [lia|]. rewrite E2. cbn [obind].
  unfold resetToFirstElementMark, at_state. cbn [x_second x_first s0 x_names x_depth x_start app].
  edestruct saveNamespaces_back as (a2 & A2 & E3); [| | |rewrite E3]; [reflexivity|reflexivity|exact NS|].
  cbn [x_first]. eexists. split; [reflexivity|].
  destruct (ends_element n (a2 ++ a1) t') as (e & EL & EQ); auto; [apply attributes_app; auto|].
  exists version, encoding, e, [10], [10]. split; [auto|]. split; [auto|]. split; [auto|]. split; [apply white_line|]. split; [apply white_line|].
  rewrite <- EQ. unfold h. rewrite <- !app_assoc. reflexivity.
Qed.
