(** Reading the tokens of a document: the objects which the reader creates, and the references which it leaves for the
    end of the document. *)
From Coq Require Import String.
From Verif Require Import Base Chars StrconvModel StrconvProofs XmlTokenModel XmlInModel XmlInSpec XmlTree XmlInWrite.
From Verif Require XmlNsModel XmlNsSpec XmlNsProofs XmlOutModel XmlOutSpec XmlOutProofs.
Open Scope Z_scope.

Section Reading.
Context {V : Type} (M : meta V) (op : options) (W : writing) (target : nat -> Prop).
Notation fname f := (XmlOutModel.f_name (w_feature W f)).
Notation wattr := (str * str * str)%type.
Notation state := (reader V).
Notation fits := (fits M op W target).
Notation valid := (valid M op W target).
Hypothesis DF : op_deferred op = true.
Hypothesis ID : id_attribute_ok op.
Hypothesis SP : spaces_ok op W.

(** ** Names *)
Lemma str_eqb_false : forall a b, a <> b -> str_eqb a b = false.
Proof. intros a b N. apply str_eqb_neq. auto. Qed.

(** the prefixes in scope *)
Definition scope : env := rev (w_spaces W).
Definition tattr (a : wattr) : attr := let '(n, _, v) := a in (translate scope false (fst (qsplit n)) (snd (qsplit n)), snd (qsplit n), v).
Lemma start_token_eq : forall n attrs, start_token scope n attrs = TStart (translate scope true (fst (qsplit n)) (snd (qsplit n))) (snd (qsplit n)) (map tattr attrs).
Proof. intros n attrs. unfold start_token. f_equal. rewrite map_map. apply map_ext. intros [[m raw] v]. reflexivity. Qed.

Lemma qsplit_plain : forall n, ~ In 58 n -> qsplit n = ([], n).
Proof. intros n N. unfold qsplit. rewrite nsname_plain by auto. auto. Qed.
Lemma tattr_plain : forall n raw v, ~ In 58 n -> tattr (n, raw, v) = ([], n, v).
Proof. intros n raw v N. unfold tattr. rewrite qsplit_plain by auto. cbn [fst snd]. unfold translate. reflexivity. Qed.

(** attributes which declare no prefix *)
Definition declares (a : attr) : bool := let '(u, n, v) := a in str_eqb u (lit "xmlns") || (str_eqb u [] && str_eqb n (lit "xmlns")).
Lemma prefix_mapping_none : forall l (s : state), (forall a, In a l -> declares a = false) -> handlePrefixMapping l s = Ok s.
Proof.
  induction l as [|[[u n] v] l IH]; intros s H; cbn [handlePrefixMapping]; auto. pose proof (H _ (or_introl eq_refl)) as D. cbn [declares] in D. apply orb_false_elim in D. destruct D as [D1 D2].
  rewrite D1, D2. cbn [obind']. apply IH. intros a I. apply H. cbn. auto.
Qed.
Lemma scope_none : forall e l, (forall a, In a l -> declares (split_attr a) = false) -> scope_of e l = e.
Proof.
  intros e l. unfold scope_of. revert e. induction l as [|a l IH]; intros e H; cbn [map env_add]; auto. pose proof (H a (or_introl eq_refl)) as D. destruct (split_attr a) as [[u n] v] eqn:E. cbn [declares] in D. apply orb_false_elim in D. destruct D as [D1 D2].
  rewrite D1, D2. apply IH. intros b I. apply H. cbn. auto.
Qed.

(** ** Name spaces *)
Definition ns_pairs : list (XmlNsModel.str * XmlNsModel.str) := map (fun pu => (to_ns (fst pu), to_ns (snd pu))) (w_spaces W).
Definition spaced (k : nat) (n : XmlNsModel.xmlns) : Prop := XmlNsProofs.RelH n (repeat [] k ++ [rev ns_pairs]) (length ns_pairs).
Lemma spaced_push : forall k n, spaced k n -> exists n', XmlNsModel.pushContext n = Some n' /\ spaced (S k) n'.
Proof. intros k n H. destruct (XmlNsProofs.push_rel _ _ _ H) as (n' & E & H'). exists n'. split; auto. Qed.
Lemma spaced_pop : forall k n, spaced (S k) n -> exists n' l, XmlNsModel.popContext n = Some (n', l) /\ spaced k n'.
Proof. intros k n H. destruct (XmlNsProofs.pop_rel _ _ _ _ H) as (n' & E & H'). exists n', (rev []). split; auto. Qed.
Lemma concat_nils : forall k (l : list (XmlNsModel.str * XmlNsModel.str)), concat (repeat [] k ++ [l]) = l.
Proof. induction k as [|k IH]; intros l; cbn [repeat app concat]; auto. rewrite app_nil_r. auto. Qed.
Lemma to_ns_inj : forall a b, (forall x, In x a -> 0 <= x) -> (forall x, In x b -> 0 <= x) -> to_ns a = to_ns b -> a = b.
Proof.
  unfold to_ns. induction a as [|x a IH]; intros [|y b] A B E; cbn in E; try discriminate; auto. injection E as E1 E2. f_equal.
  - pose proof (A x ltac:(cbn; auto)). pose proof (B y ltac:(cbn; auto)). lia.
  - apply IH; auto; intros z I; [apply A|apply B]; cbn; auto.
Qed.
Lemma of_to_ns : forall a, (forall x, In x a -> 0 <= x) -> of_ns (to_ns a) = a.
Proof. unfold of_ns, to_ns. induction a as [|x a IH]; intros A; cbn; auto. rewrite IH by (intros; apply A; cbn; auto). pose proof (A x ltac:(cbn; auto)). f_equal. lia. Qed.
Lemma plain_nonneg : forall e u x, plain e u -> In x u -> 0 <= x.
Proof. intros e u x P I. destruct (P x I) as [A _]. unfold allowed in A. lia. Qed.

Lemma ns_eqb : forall a b, (forall x, In x a -> 0 <= x) -> (forall x, In x b -> 0 <= x) -> XmlNsModel.str_eqb (to_ns a) (to_ns b) = str_eqb a b.
Proof.
  intros a b A B. destruct (XmlNsProofs.str_eqb_spec (to_ns a) (to_ns b)) as [E|N].
  - apply to_ns_inj in E; auto. subst. rewrite str_eqb_refl. auto.
  - symmetry. apply str_eqb_neq. intros ->. congruence.
Qed.
Lemma find_unique : forall (l : list (str * str)) p, NoDup (map fst l) -> find (fun pu => str_eqb p (fst pu)) (rev l) = find (fun pu => str_eqb p (fst pu)) l.
Proof.
  induction l as [|[q u] l IH]; intros p ND; cbn [rev find fst]; auto. inversion ND as [|? ? NI ND']; subst. cbn [fst] in NI.
  assert (FA : forall l', find (fun pu : str * str => str_eqb p (fst pu)) (l' ++ [(q, u)]) = match find (fun pu => str_eqb p (fst pu)) l' with Some x => Some x | None => if str_eqb p q then Some (q, u) else None end).
  { induction l' as [|y l' IH']; cbn [app find fst]; auto. destruct (str_eqb p (fst y)); auto. }
  rewrite FA, IH by auto. destruct (str_eqb p q) eqn:E; [|destruct (find _ l); auto].
  apply str_eqb_eq in E. subst. destruct (find (fun pu => str_eqb q (fst pu)) l) as [[q' u']|] eqn:F; auto.
  apply find_some in F. destruct F as [F1 F2]. cbn in F2. apply str_eqb_eq in F2. subst. exfalso. apply NI. apply in_map_iff. exists (q', u'). auto.
Qed.
Lemma spaced_uri : forall k (s : state) p, spaced k (spaces s) -> (forall x, In x p -> 0 <= x) -> getURI s p = Ok (space_of W p).
Proof.
  intros k s p [R _] P. unfold getURI. destruct (XmlNsProofs.rel_lookup _ _ R) as [U _]. rewrite U. cbn [of_panic obind'].
  unfold XmlNsSpec.spec_uri. rewrite concat_nils. unfold ns_pairs. rewrite <- map_rev.
  unfold space_of. rewrite <- (find_unique (w_spaces W)) by apply (sp_distinct _ _ SP).
  assert (X : forall l, (forall pu, In pu l -> In pu (w_spaces W)) ->
    find (fun d => XmlNsModel.str_eqb (fst d) (to_ns p)) (map (fun pu => (to_ns (fst pu), to_ns (snd pu))) l) = option_map (fun pu => (to_ns (fst pu), to_ns (snd pu))) (find (fun pu => str_eqb p (fst pu)) l)).
  { induction l as [|[q u] l IH]; intros I; cbn [map find fst snd]; auto. rewrite ns_eqb; auto; [|intros x J; eapply (sp_chars _ _ SP); [apply I; cbn; auto|eauto]].
    assert (C : str_eqb q p = str_eqb p q) by (destruct (str_eqb q p) eqn:E; [apply str_eqb_eq in E; subst; rewrite str_eqb_refl; auto|symmetry; apply str_eqb_neq; apply str_eqb_neq in E; congruence]).
    rewrite C. destruct (str_eqb p q); auto. apply IH. intros; apply I; cbn; auto. }
  rewrite X by (intros pu I; apply in_rev; auto). destruct (find _ (rev (w_spaces W))) as [[q u]|] eqn:F; cbn [option_map snd]; auto. rewrite of_to_ns; auto.
  apply find_some in F. destruct F as [F _]. apply in_rev in F. intros x J. eapply plain_nonneg; eauto. eapply (sp_uri _ _ SP); eauto.
Qed.
Lemma scope_get : forall p, env_get scope p = option_map snd (find (fun pu => str_eqb p (fst pu)) (w_spaces W)).
Proof.
  intros p. rewrite <- find_unique by apply (sp_distinct _ _ SP). unfold scope. induction (rev (w_spaces W)) as [|[q u] l IH]; cbn [env_get find fst]; auto. destruct (str_eqb p q); auto.
Qed.

(** ** Heaps *)
Definition heq (h h' : nat -> robj V) : Prop := forall x, same_object (h x) (h' x).
Lemma same_refl : forall o : robj V, same_object o o.
Proof. intros o. repeat split; auto. Qed.
Lemma same_trans : forall a b c : robj V, same_object a b -> same_object b c -> same_object a c.
Proof. intros a b c (A1 & A2 & A3 & A4 & A5) (B1 & B2 & B3 & B4 & B5). split; [congruence|]. split; [congruence|]. split; [congruence|]. split; [congruence|]. intros f. rewrite A5. auto. Qed.
Lemma heq_refl : forall h, heq h h.
Proof. intros h x. apply same_refl. Qed.
Lemma heq_trans : forall a b c, heq a b -> heq b c -> heq a c.
Proof. intros a b c H K x. eapply same_trans; eauto. Qed.

Definition put_slot (a f : nat) (v : rslot V) (h : nat -> robj V) : nat -> robj V :=
  upd h a (mkR (r_class (h a)) (upd (r_slot (h a)) f v) (r_parent (h a)) (r_proxy (h a)) (r_id (h a))).
Definition place (n : nat) (l : list (robj V)) (h : nat -> robj V) : nat -> robj V :=
  fun x => if (n <=? x)%nat && (x <? n + length l)%nat then nth (x - n) l (h x) else h x.
Lemma upd_heq : forall h h' a o o', heq h h' -> same_object o o' -> heq (upd h a o) (upd h' a o').
Proof. intros h h' a o o' H O x. unfold upd. destruct (Nat.eqb x a); auto. Qed.
Lemma put_heq : forall a f v h h', heq h h' -> heq (put_slot a f v h) (put_slot a f v h').
Proof.
  intros a f v h h' H. apply upd_heq; auto. destruct (H a) as (A1 & A2 & A3 & A4 & A5). repeat split; cbn; auto. intros g. unfold upd. destruct (Nat.eqb g f); auto.
Qed.
Lemma place_heq : forall n l h h', heq h h' -> heq (place n l h) (place n l h').
Proof.
  intros n l h h' H x. unfold place. destruct ((n <=? x)%nat && (x <? n + length l)%nat) eqn:E; auto. rewrite (nth_indep l (h x) (h' x)) by lia. apply same_refl.
Qed.
Lemma place_nil : forall n h, heq (place n [] h) h.
Proof. intros n h x. unfold place. cbn [length]. replace ((n <=? x)%nat && (x <? n + 0)%nat) with false by lia. apply same_refl. Qed.
Lemma place_app : forall n l l' h, heq (place (n + length l) l' (place n l h)) (place n (l ++ l') h).
Proof.
  intros n l l' h x. unfold place. rewrite app_length. destruct (Nat.leb_spec (n + length l) x); destruct (Nat.ltb_spec x (n + length l + length l')); cbn [andb].
  - replace ((n <=? x)%nat && (x <? n + length l)%nat) with false by lia. replace ((n <=? x)%nat && (x <? n + (length l + length l'))%nat) with true by lia.
    rewrite app_nth2 by lia. replace (x - n - length l)%nat with (x - (n + length l))%nat by lia. apply same_refl.
  - replace ((n <=? x)%nat && (x <? n + length l)%nat) with false by lia. replace ((n <=? x)%nat && (x <? n + (length l + length l'))%nat) with false by lia. apply same_refl.
  - destruct (Nat.leb_spec n x); cbn [andb]; [|apply same_refl]. replace (x <? n + length l)%nat with true by lia. replace (x <? n + (length l + length l'))%nat with true by lia. rewrite app_nth1 by lia. apply same_refl.
  - lia.
Qed.
Lemma put_place : forall a f v n l h, (a < n)%nat -> heq (put_slot a f v (place n l h)) (place n l (put_slot a f v h)).
Proof.
  intros a f v n l h L x. unfold put_slot, upd, place. destruct (Nat.eqb_spec x a) as [->|N].
  - replace ((n <=? a)%nat && (a <? n + length l)%nat) with false by lia. apply same_refl.
  - destruct ((n <=? x)%nat && (x <? n + length l)%nat) eqn:E; [|apply same_refl]. rewrite (nth_indep l (h x) (if Nat.eqb x a then mkR (r_class (h a)) (upd (r_slot (h a)) f v) (r_parent (h a)) (r_proxy (h a)) (r_id (h a)) else h x)) by lia.
    apply Nat.eqb_neq in N. rewrite N. apply same_refl.
Qed.
Lemma put_put : forall a f v v' h, heq (put_slot a f v' (put_slot a f v h)) (put_slot a f v' h).
Proof.
  intros a f v v' h x. unfold put_slot, upd. rewrite Nat.eqb_refl. destruct (Nat.eqb x a); [|apply same_refl]. repeat split; cbn; auto. intros g. destruct (Nat.eqb g f); auto.
Qed.
Lemma place_at : forall n l h x, (n <= x)%nat -> forall o, nth_error l (x - n) = Some o -> place n l h x = o.
Proof.
  intros n l h x L o E. unfold place. assert (X : (x - n < length l)%nat) by (apply nth_error_Some; congruence). replace ((n <=? x)%nat && (x <? n + length l)%nat) with true by lia.
  erewrite nth_error_nth by eauto. auto.
Qed.
Lemma place_out : forall n l h x, (x < n \/ n + length l <= x)%nat -> place n l h x = h x.
Proof. intros n l h x H. unfold place. replace ((n <=? x)%nat && (x <? n + length l)%nat) with false by lia. auto. Qed.

(** ** Attributes *)
(** references which are left for the end of the document: object, feature, target and position *)
Notation link := (nat * nat * nat * Z)%type.
Definition to_ref (x : link) : xmlref := let '(a, f, k, p) := x in mkRef a f (w_frag W k) p.
Fixpoint numbered (a f : nat) (l : list nat) (p : Z) : list link := match l with [] => [] | k :: l' => (a, f, k, p) :: numbered a f l' (p + 1) end.
Definition slot_links (a : nat) (fv : nat * dval V) : list link := match snd fv with DLinks l => numbered a (fst fv) l 0 | _ => [] end.
Definition attr_fill (slots : list (nat * dval V)) (g : nat -> rslot V) : nat -> rslot V :=
  fold_left (fun g fv => match snd fv with DData v => upd g (fst fv) (SData v) | _ => g end) slots g.
Definition with_slots (o : robj V) (g : nat -> rslot V) : robj V := mkR (r_class o) g (r_parent o) (r_proxy o) (r_id o).

Lemma handleAttributes_app : forall o l l' (s : state), handleAttributes M op o (l ++ l') s = obind' (handleAttributes M op o l s) (handleAttributes M op o l').
Proof.
  intros o l l'. induction l as [|[[u n] v] l IH]; intros s; cbn [app handleAttributes]; auto.
  destruct (if str_eqb n (op_id op) then _ else _); cbn [obind']; auto.
Qed.
Lemma user_attribute : forall o n v (s : state), n <> op_id op -> n <> lit "href" -> n <> lit "xmlns" -> handleAttributes M op o [([], n, v)] s = setAttributeValue M op o n v s.
Proof.
  intros o n v s N1 N2 N3. cbn [handleAttributes]. rewrite (str_eqb_false n (op_id op)), (str_eqb_false n (lit "href")), (str_eqb_false n (lit "xmlns")) by auto. change (str_eqb [] (lit "xmlns")) with false.
  cbn [negb andb]. unfold isUserAttribute. change (str_eqb [] xsiURI) with false. cbn [negb andb]. destruct (setAttributeValue M op o n v s); reflexivity.
Qed.
Lemma split_plain : forall n, ~ In 58 n -> split_qname n = ([], n).
Proof. intros n N. unfold split_qname. rewrite cut_no_colon by auto. auto. Qed.

Lemma ids_deferred : forall o f l p later (s : state), l <> [] -> (forall k, In k l -> frag_ok W k) ->
  ids_loop M op o f (map (fun k => 35 :: w_frag W k) l) [] p later s = Ok (p + zlen l, later ++ map to_ref (numbered o f l p), s).
Proof.
  intros o f l. induction l as [|k l IH]; intros p later s N H; [congruence|]. cbn [map ids_loop]. cbn [str_index Z.eqb Pos.eqb]. cbn [Z.ltb Z.compare Z.opp andb]. cbv zeta. rewrite DF. cbn [tl].
  destruct l as [|k' l].
  - cbn [map ids_loop numbered]. unfold zlen. cbn [length Z.of_nat Pos.of_succ_nat]. reflexivity.
  - rewrite IH by (try discriminate; intros; apply H; cbn; auto). f_equal. f_equal. f_equal.
    + unfold zlen. cbn [length]. lia.
    + cbn [numbered map]. rewrite <- app_assoc. reflexivity.
Qed.
Lemma set_links : forall o f l (s : state), l <> [] -> (forall k, In k l -> frag_ok W k) ->
  setValueFromId M op o f (idrefs_text W l) s = Ok (with_references (references s ++ map to_ref (numbered o f l 0)) s).
Proof.
  intros o f l s N H. unfold setValueFromId, idrefs_text. rewrite split_join.
  - rewrite ids_deferred by auto. cbn [obind']. replace (0 + zlen l =? 0) with false by (unfold zlen; destruct l; [congruence|cbn [length]; lia]). reflexivity.
  - destruct l; [congruence|discriminate].
  - intros x I. apply in_map_iff in I. destruct I as (k & <- & K). destruct (H k K) as [_ NS]. intros [E|J]; [discriminate|contradiction].
Qed.

Lemma slot_attr_read : forall c f v (s : state) o, fits c f v -> r_class (heap s o) = c ->
  exists h, handleAttributes M op o (map tattr (slot_attrs M W (f, v))) s = Ok (with_references (references s ++ map to_ref (slot_links o (f, v))) (with_heap h s)) /\
            heq h (upd (heap s) o (with_slots (heap s o) (attr_fill [(f, v)] (r_slot (heap s o))))).
Proof.
  intros c f v s o H C.
  assert (ID' : heq (heap s) (upd (heap s) o (with_slots (heap s o) (r_slot (heap s o))))).
  { intros x. unfold upd. destruct (Nat.eqb_spec x o) as [->|]; [|apply same_refl]. repeat split; auto. }
  assert (KEEP : with_references (references s ++ []) (with_heap (heap s) s) = s) by (rewrite app_nil_r; destruct s; reflexivity).
  destruct H as [c f|c f v FO K SH AL|c f l FO K N H KP|c f l FO SH NC ND H|c f l FO SH NC H|c f l FO SH CT H]; unfold slot_links; cbn [slot_attrs snd fst map attr_fill fold_left].
  - exists (heap s). rewrite KEEP. split; auto.
  - destruct (fo_name _ _ _ _ _ FO) as [_ NC]. destruct (fo_not _ _ _ _ _ FO) as [N1 N2]. rewrite tattr_plain by auto. rewrite user_attribute by (auto; intros E; apply N1; rewrite E; cbn; auto).
    unfold setAttributeValue. rewrite split_plain by auto. cbn [snd]. rewrite C, (fo_found _ _ _ _ _ FO), K. unfold setFeatureValue. rewrite K. exists (upd (heap s) o (with_slots (heap s o) (upd (r_slot (heap s o)) f (SData v)))). split; [|apply heq_refl].
    unfold shown in SH. rewrite SH, app_nil_r. unfold set_slot, with_slots. destruct s; reflexivity.
  - exists (heap s). rewrite KEEP. split; auto.
  - destruct (fo_name _ _ _ _ _ FO) as [_ NCo]. destruct (fo_not _ _ _ _ _ FO) as [N1 N2]. rewrite tattr_plain by auto. rewrite user_attribute by (auto; intros E; apply N1; rewrite E; cbn; auto).
    unfold setAttributeValue. rewrite split_plain by auto. cbn [snd]. rewrite C, (fo_found _ _ _ _ _ FO). exists (heap s). split; auto.
    assert (E : setValueFromId M op o f (idrefs_text W l) s = Ok (with_references (references s ++ map to_ref (numbered o f l 0)) (with_heap (heap s) s))).
    { rewrite set_links; [destruct s; reflexivity| |intros; apply H; auto]. unfold shaped in SH. destruct (m_kind M f); try (destruct SH; fail); auto. intros ->. discriminate. }
    unfold shaped in SH. destruct (m_kind M f); try (destruct SH; fail); exact E.
  - exists (heap s). rewrite KEEP. split; auto.
  - exists (heap s). rewrite KEEP. split; auto.
Qed.
Lemma attr_fill_ext : forall slots g g', (forall f, g f = g' f) -> forall f, attr_fill slots g f = attr_fill slots g' f.
Proof.
  unfold attr_fill. induction slots as [|[f v] slots IH]; intros g g' E x; cbn [fold_left]; auto. apply IH. intros y. cbn [snd fst]. destruct v; auto. unfold upd. destruct (Nat.eqb y f); auto.
Qed.
Lemma slot_attrs_read : forall c slots (s : state) o, (forall f v, In (f, v) slots -> fits c f v) -> r_class (heap s o) = c ->
  exists h, handleAttributes M op o (map tattr (flat_map (slot_attrs M W) slots)) s = Ok (with_references (references s ++ map to_ref (flat_map (slot_links o) slots)) (with_heap h s)) /\
            heq h (upd (heap s) o (with_slots (heap s o) (attr_fill slots (r_slot (heap s o))))).
Proof.
  intros c slots. induction slots as [|[f v] slots IH]; intros s o H C; cbn [flat_map map].
  - exists (heap s). split; [rewrite app_nil_r; destruct s; reflexivity|]. intros x. unfold upd. destruct (Nat.eqb_spec x o) as [->|]; [|apply same_refl]. repeat split; auto.
  - rewrite map_app, handleAttributes_app. destruct (slot_attr_read c f v s o) as (h & E & HE); [apply H; cbn; auto|auto|]. rewrite E. cbn [obind']. clear E.
    match goal with |- context [handleAttributes _ _ _ _ ?t] => set (s1 := t) end.
    assert (C1 : r_class (heap s1 o) = c) by (cbn; destruct (HE o) as (X & _); rewrite X; unfold upd; rewrite Nat.eqb_refl; auto).
    destruct (IH s1 o) as (h2 & E2 & HE2); [intros; apply H; cbn; auto|auto|]. rewrite E2. exists h2. split.
    + unfold s1. cbn. rewrite map_app, app_assoc. reflexivity.
    + eapply heq_trans; [apply HE2|]. unfold s1. cbn [heap with_references with_heap]. intros x. unfold upd. destruct (Nat.eqb_spec x o) as [->|N].
      * destruct (HE o) as (A1 & A2 & A3 & A4 & A5). unfold upd in *. rewrite Nat.eqb_refl in *. cbn in A1, A2, A3, A4, A5. repeat split; cbn; auto. intros g. rewrite (attr_fill_ext slots _ _ A5). reflexivity.
      * destruct (HE x) as (A1 & A2 & A3 & A4 & A5). unfold upd in *. apply Nat.eqb_neq in N. rewrite N in *. repeat split; auto.
Qed.

(** ** Steps *)
Definition ready (k : nat) (s : state) : Prop :=
  textBuilder s = None /\ spaced k (spaces s) /\ (forall x, In x (rcontents s) -> (x < next s)%nat) /\ exists n, elements s = S n.
Definition frame (s s' : state) : Prop :=
  rcontents s' = rcontents s /\ errors s' = errors s /\ objects s' = objects s /\ types s' = types s /\ elements s' = elements s /\ deferred s' = deferred s /\ prefixes s' = prefixes s.
Definition after (k : nat) (s s' : state) (h : nat -> robj V) (n : nat) (r : list link) : Prop :=
  frame s s' /\ ready k s' /\ heq (heap s') h /\ next s' = n /\ references s' = references s ++ map to_ref r.
Definition runs (k : nat) (ts : list token) (s : state) (h : nat -> robj V) (n : nat) (r : list link) : Prop :=
  exists s', steps M op ts s = Ok s' /\ after k s s' h n r.
Lemma steps_app : forall ts ts' (s : state), steps M op (ts ++ ts') s = obind' (steps M op ts s) (steps M op ts').
Proof. induction ts as [|t ts IH]; intros ts' s; cbn [app steps obind']; auto. destruct (step M op t s); cbn [obind']; auto. Qed.
Lemma frame_refl : forall s, frame s s.
Proof. intros s. repeat split; auto. Qed.
Lemma frame_trans : forall a b c, frame a b -> frame b c -> frame a c.
Proof. intros a b c (A1 & A2 & A3 & A4 & A5 & A6 & A7) (B1 & B2 & B3 & B4 & B5 & B6 & B7). repeat split; congruence. Qed.
Lemma runs_nil : forall k s, ready k s -> runs k [] s (heap s) (next s) [].
Proof. intros k s R. exists s. split; auto. split; [apply frame_refl|]. split; auto. split; [apply heq_refl|]. split; auto. rewrite app_nil_r. auto. Qed.
Lemma runs_heq : forall k ts s h h' n r, runs k ts s h n r -> heq h h' -> runs k ts s h' n r.
Proof. intros k ts s h h' n r (s' & E & F & R & H & N & RF) HH. exists s'. split; auto. split; auto. split; auto. split; auto. eapply heq_trans; eauto. Qed.
Lemma runs_seq : forall k ts ts' s h n r h' n' r', runs k ts s h n r -> (forall s1, after k s s1 h n r -> runs k ts' s1 h' n' r') -> runs k (ts ++ ts') s h' n' (r ++ r').
Proof.
  intros k ts ts' s h n r h' n' r' (s1 & E & A) H. destruct (H s1 A) as (s2 & E2 & F2 & R2 & H2 & N2 & RF2). destruct A as (F & R & HH & N & RF).
  exists s2. rewrite steps_app, E. split; auto. split; [eapply frame_trans; eauto|]. split; auto. split; auto. split; auto. rewrite RF2, RF, map_app, app_assoc. auto.
Qed.
Lemma runs_text : forall k t ts s h n r, ready k s -> runs k ts s h n r -> runs k (TText t :: ts) s h n r.
Proof. intros k t ts s h n r (T & _) (s' & E & A). exists s'. split; auto. cbn [steps step obind']. unfold addText. rewrite T. auto. Qed.

Lemma is_nil_false : forall (l : str), l <> [] -> match l with [] => true | _ => false end = false.
Proof. intros [|x l]; congruence. Qed.

(** the end of an element which stands for an object *)
Lemma end_object : forall k s x rest ty, ready (S k) s -> objects s = x :: rest -> types s = TObject :: ty -> (exists n, elements s = S (S n)) ->
  exists s', step M op TEnd s = Ok s' /\ rcontents s' = rcontents s /\ errors s' = errors s /\ objects s' = rest /\ types s' = ty /\ elements s' = pred (elements s) /\ deferred s' = deferred s /\ prefixes s' = prefixes s /\
    ready k s' /\ heap s' = heap s /\ next s' = next s /\ references s' = references s.
Proof.
  intros k s x rest ty (T & S1 & C & _) O TY (m & EL). destruct (spaced_pop k _ S1) as (n' & l & P & S2). cbn [step]. unfold endElement. rewrite EL. cbn [pred]. cbn [objects types with_elements elements textBuilder with_stacks]. rewrite O, TY, T. cbn [obind' tl]. cbn [elements with_text with_stacks with_elements obind'].
  cbn [spaces with_text with_stacks with_elements]. rewrite P. cbn [of_panic obind' fst]. eexists. split; [reflexivity|]. cbn.
  do 7 (split; [reflexivity|]). split; [split; [reflexivity|split; [exact S2|split; [exact C|exists m; reflexivity]]]|]. auto.
Qed.

(** *** Data in elements *)
Lemma data_run : forall k s a rest c f t d, ready k s -> objects s = Some a :: rest -> r_class (heap s a) = c -> feature_ok M op W c f -> m_kind M f = Many ->
  runs k (toks scope d (Elem (fname f) [] (CText t))) s (put_slot a f (SDatas (add_data M f (datas (r_slot (heap s a) f)) (m_read M f t))) (heap s)) (next s) [].
Proof.
  intros k s a rest c f t d R O C FO K. pose proof R as (T & S1 & CT & (m & EL)). destruct (fo_name _ _ _ _ _ FO) as [_ NC].
  cbn [toks]. rewrite scope_none by (intros ? []). rewrite start_token_eq, qsplit_plain by auto. cbn [fst snd map]. destruct (spaced_push k _ S1) as (n1 & P1 & S2). destruct (spaced_pop k _ S2) as (n2 & l & P2 & S3).
  assert (ST : step M op (TStart (translate scope true [] (fname f)) (fname f) []) s = Ok (with_text (Some []) (with_stacks (None :: objects s) (TFeature f :: types s) (with_spaces n1 (prefixes s) (with_attributes [] (with_elements (S (elements s)) s)))))).
  { cbn [step]. unfold startElement. cbn [spaces with_attributes with_elements]. rewrite P1. cbn [of_panic obind' handlePrefixMapping]. unfold processElement. cbn [objects with_spaces with_attributes with_elements]. rewrite O. unfold handleFeature. cbn [objects heap with_spaces with_attributes with_elements]. rewrite O, C, (fo_found _ _ _ _ _ FO), K. reflexivity. }
  set (s1 := with_text (Some []) (with_stacks (None :: objects s) (TFeature f :: types s) (with_spaces n1 (prefixes s) (with_attributes [] (with_elements (S (elements s)) s))))) in *.
  assert (TX : steps M op match t with [] => [] | _ :: _ => [TText t] end s1 = Ok (with_text (Some t) s1)) by (destruct t; reflexivity).
  assert (EN : step M op TEnd (with_text (Some t) s1) = Ok (with_spaces n2 (prefixes s) (with_text None (set_slot a f (SDatas (add_data M f (datas (r_slot (heap s a) f)) (m_read M f t))) (with_stacks (objects s) (types s) (with_elements (elements s) (with_text (Some t) s1))))))).
  { cbn [step]. unfold endElement. unfold s1. cbn [objects types elements textBuilder with_elements with_stacks with_text with_spaces with_attributes pred tl obind']. rewrite O. unfold setFeatureValue. rewrite K. cbn [Z.eqb Z.opp Pos.eqb obind']. cbn [objects types elements textBuilder heap with_elements with_stacks with_text with_spaces with_attributes set_slot with_heap]. rewrite EL. cbn [obind' spaces set_slot with_heap with_elements with_stacks with_text with_spaces with_attributes]. rewrite P2. reflexivity. }
  eexists. split.
  - cbn [app]. change (steps M op (?x :: ?l) s) with (let+ s := step M op x s in steps M op l s). rewrite ST. cbn [obind'].
    assert (SP2 : (match t with [] => [] | _ :: _ => [TText t] end ++ [TEnd]) = (match t with [] => [] | _ :: _ => [TText t] end ++ [TEnd])) by reflexivity.
    destruct t as [|x t]; cbn [app]; [rewrite <- (app_nil_l [TEnd])|change (TText (x :: t) :: [TEnd]) with ([TText (x :: t)] ++ [TEnd])]; rewrite steps_app, TX; cbn [obind']; cbn [steps]; rewrite EN; cbn [obind']; reflexivity.
  - split; [repeat split; auto|]. split; [split; [reflexivity|split; [exact S3|split; [exact CT|exists m; exact EL]]]|]. split; [|split; [reflexivity|cbn; rewrite app_nil_r; reflexivity]]. cbn. apply heq_refl.
Qed.

(** *** Objects in elements *)
Definition slot_holds (f : nat) (v : rslot V) (cur : list nat) : Prop := (v = Unset /\ cur = []) \/ (is_many M f = true /\ v = SRefs cur).
Lemma set_object : forall a f x (s : state) cur, match m_kind M f with ManyAdd => True | Other => cur = [] | _ => False end -> slot_holds f (r_slot (heap s a) f) cur -> ~ In x cur -> x <> a ->
  (m_contain M f = true -> is_attached s x = false) ->
  setFeatureValue M (Some a) f (FObject x) (-1) s = Ok (set_slot a f (reference M f (cur ++ [x])) (if m_contain M f then set_parent x (Some (a, f)) s else s)).
Proof.
  intros a f x s cur K H NI NX AT. unfold setFeatureValue. assert (CO : contain M a f x s = Ok (if m_contain M f then set_parent x (Some (a, f)) s else s)).
  { unfold contain. destruct (m_contain M f); auto. rewrite AT; auto. }
  unfold reference, is_many. destruct (m_kind M f) eqn:KE; try (destruct K; fail).
  - cbn [Z.eqb Z.opp Pos.eqb orb]. rewrite CO. cbn [obind']. f_equal. f_equal. f_equal. unfold add_ref.
    assert (RF : refs (r_slot (heap s a) f) = cur) by (destruct H as [[-> ->]|[_ ->]]; reflexivity). rewrite RF.
    replace (existsb (Nat.eqb x) cur) with false; [rewrite andb_false_r; auto|]. symmetry. destruct (existsb (Nat.eqb x) cur) eqn:E; auto. apply existsb_exists in E. destruct E as (y & I & E). apply Nat.eqb_eq in E. subst. contradiction.
  - subst cur. rewrite CO. cbn [obind' app]. destruct H as [[-> _]|[B _]]; [|unfold is_many in B; rewrite KE in B; discriminate]. destruct (m_contain M f); reflexivity.
Qed.

(** what the attributes make of a new object *)
Definition attributes_make (al : list wattr) (c : nat) (o : robj V) (r : nat -> list link) : Prop :=
  forall (s : state) b, heap s b = fresh c -> exists h, handleAttributes M op b (map tattr al) s = Ok (with_references (references s ++ map to_ref (r b)) (with_heap h s)) /\ heq h (upd (heap s) b o).
(** how the class is found *)
Definition class_from (f : nat) (al : list wattr) (c : nat) : Prop :=
  (getAttributeValue xsiURI (lit "type") (map tattr al) = [] /\ c = m_type M f) \/
  (getAttributeValue xsiURI (lit "type") (map tattr al) = w_class W c /\ class_ok M W c).
Lemma class_resolves : forall k (s : state) c, spaced k (spaces s) -> class_ok M W c -> exists p l pk, split_qname (w_class W c) = (p, l) /\ getURI s p = Ok (space_of W p) /\ m_package M (space_of W p) = Some pk /\ m_class M pk l = Some c.
Proof.
  intros k s c S1 (_ & p & l & pk & Q & IN & NN & AL & MP & MC). exists p, l, pk. split; [|split; [eapply spaced_uri; eauto|auto]].
  destruct Q as (NL & CL & [(-> & -> & _)|(NP & CP & _ & ->)]); [apply split_plain; auto|]. unfold split_qname. rewrite cut_colon by auto. destruct p; [destruct NP; congruence|]. auto.
Qed.

Lemma start_object : forall k s a rest c f al c' o r cur,
  ready k s -> objects s = Some a :: rest -> r_class (heap s a) = c -> feature_ok M op W c f -> match m_kind M f with ManyAdd => True | Other => cur = [] | _ => False end ->
  slot_holds f (r_slot (heap s a) f) cur -> (forall x, In x cur -> (x < next s)%nat) -> (a < next s)%nat ->
  m_abstract M c' = false -> class_from f al c' -> (forall x, In x (map tattr al) -> declares x = false) -> attributes_make al c' o r -> r_parent o = None ->
  exists s', step M op (start_token scope (fname f) al) s = Ok s' /\
    rcontents s' = rcontents s /\ errors s' = errors s /\ objects s' = Some (next s) :: objects s /\ types s' = TObject :: types s /\ elements s' = S (elements s) /\ deferred s' = deferred s /\ prefixes s' = prefixes s /\
    ready (S k) s' /\ next s' = S (next s) /\ references s' = references s ++ map to_ref (r (next s)) /\
    heq (heap s') (put_slot a f (reference M f (cur ++ [next s])) (upd (heap s) (next s) (mkR (r_class o) (r_slot o) (if m_contain M f then Some (a, f) else None) (r_proxy o) (r_id o)))).
Proof.
  intros k s a rest c f al c' o r cur R O C FO K SH CU LA AB CF DE AM PO. pose proof R as (T & S1 & CT & (m & EL)). destruct (fo_name _ _ _ _ _ FO) as [_ NC].
  rewrite start_token_eq, qsplit_plain by auto. cbn [fst snd]. destruct (spaced_push k _ S1) as (n1 & P1 & S2). cbn [step]. unfold startElement. cbn [spaces with_attributes with_elements]. rewrite P1. cbn [of_panic obind'].
  rewrite prefix_mapping_none by auto. cbn [obind']. unfold processElement. cbn [objects with_spaces with_attributes with_elements]. rewrite O. unfold handleFeature. cbn [objects heap with_spaces with_attributes with_elements]. rewrite O, C, (fo_found _ _ _ _ _ FO).
  set (s1 := with_spaces n1 (prefixes (with_attributes (map tattr al) (with_elements (S (elements s)) s))) (with_attributes (map tattr al) (with_elements (S (elements s)) s))).
  set (b := next s) in *.
  (* the new object *)
  assert (CR : exists s2 h, createObject M op (Some c') s1 = Ok (Some b, s2) /\ s2 = with_references (references s ++ map to_ref (r b)) (with_heap h (snd (create c' s1))) /\ heq h (upd (heap s) b o)).
  { unfold createObject, create_plain. rewrite AB. unfold create at 1. cbn [next s1 with_spaces with_attributes with_elements]. fold b.
    match goal with |- context [handleAttributes _ _ _ (attributes ?t) _] => set (s2 := t) end. change (attributes s2) with (map tattr al). change (next s1) with b in *.
    destruct (AM s2 b) as (h & E & HE); [cbn; unfold upd; rewrite Nat.eqb_refl; auto|]. rewrite E. cbn [obind']. eexists. exists h. split; [reflexivity|]. split; [reflexivity|].
    eapply heq_trans; [apply HE|]. cbn. intros x. unfold upd. destruct (Nat.eqb x b); apply same_refl. }
  destruct CR as (s2 & h & CR & S2E & HE).
  assert (FV : setFeatureValue M (Some a) f (FObject b) (-1) s2 = Ok (set_slot a f (reference M f (cur ++ [b])) (if m_contain M f then set_parent b (Some (a, f)) s2 else s2))).
  { apply set_object; auto.
    - rewrite S2E. cbn. destruct (HE a) as (_ & _ & _ & _ & X). rewrite X. unfold upd. replace (Nat.eqb a b) with false by (symmetry; apply Nat.eqb_neq; lia). auto.
    - intros I. specialize (CU b I). lia.
    - lia.
    - intros MC. unfold is_attached. rewrite S2E. cbn. destruct (HE b) as (_ & X & _). rewrite X. unfold upd. rewrite Nat.eqb_refl, PO. rewrite orb_false_r. destruct (existsb (Nat.eqb b) (rcontents s)) eqn:E; auto. apply existsb_exists in E. destruct E as (y & I & E). apply Nat.eqb_eq in E. subst y. specialize (CT b I). lia. }
  assert (RES : exists s', match m_kind M f with
      | Single | Many => Ok (with_text (Some []) (with_stacks (None :: Some a :: rest) (TFeature f :: types s1) s1))
      | _ => match getAttributeValue xsiURI (lit "type") (attributes s1) with [] => createObjectFromFeatureType M op a f s1 | q => createObjectFromTypeName M op a q f s1 end end = Ok s' /\
      s' = processObject (Some b) (set_slot a f (reference M f (cur ++ [b])) (if m_contain M f then set_parent b (Some (a, f)) s2 else s2))).
  { assert (G : match getAttributeValue xsiURI (lit "type") (attributes s1) with [] => createObjectFromFeatureType M op a f s1 | q => createObjectFromTypeName M op a q f s1 end =
             Ok (processObject (Some b) (set_slot a f (reference M f (cur ++ [b])) (if m_contain M f then set_parent b (Some (a, f)) s2 else s2)))).
    { change (attributes s1) with (map tattr al). destruct CF as [[-> ->]|[-> CK]].
      - unfold createObjectFromFeatureType. rewrite CR. cbn [obind']. rewrite FV. reflexivity.
      - destruct (class_resolves (S k) s1 c') as (p & l & pk & Q1 & Q2 & Q3 & Q4); auto.
        assert (E : createObjectFromTypeName M op a (w_class W c') f s1 = Ok (processObject (Some b) (set_slot a f (reference M f (cur ++ [b])) (if m_contain M f then set_parent b (Some (a, f)) s2 else s2)))).
        { unfold createObjectFromTypeName. rewrite Q1, Q2. cbn [obind']. rewrite Q3, Q4, CR. cbn [obind']. rewrite FV. reflexivity. }
        destruct (class_name M W target c' CK) as [[[NE _] _] _]. destruct (w_class W c'); [congruence|]. exact E. }
    eexists. split; [|reflexivity]. destruct (m_kind M f); try (destruct K; fail); exact G. }
  destruct RES as (s' & RE & SE). exists s'. split; [exact RE|].
  assert (X : forall (P : state -> Prop), P (processObject (Some b) (set_slot a f (reference M f (cur ++ [b])) (set_parent b (Some (a, f)) s2))) -> P (processObject (Some b) (set_slot a f (reference M f (cur ++ [b])) s2)) -> P s') by (intros P H1 H2; rewrite SE; destruct (m_contain M f); auto).
  rewrite SE, S2E. clear X. destruct (m_contain M f) eqn:MC; cbn; rewrite ?O; (split; [reflexivity|]); (split; [reflexivity|]); (split; [reflexivity|]); (split; [reflexivity|]); (split; [reflexivity|]); (split; [reflexivity|]); (split; [reflexivity|]).
  - split; [split; [exact T|split; [exact S2|split; [intros x I; cbn in *; specialize (CT x I); unfold b; lia|exists (elements s); reflexivity]]]|]. split; [reflexivity|]. split; [reflexivity|].
    apply (put_heq a f (reference M f (cur ++ [b]))). intros x. unfold upd. destruct (Nat.eqb x b) eqn:E; [|pose proof (HE x) as Y; unfold upd in Y; rewrite E in Y; exact Y].
    pose proof (HE b) as (A1 & A2 & A3 & A4 & A5). unfold upd in *. rewrite Nat.eqb_refl in *. repeat split; auto.
  - split; [split; [exact T|split; [exact S2|split; [intros x I; cbn in *; specialize (CT x I); unfold b; lia|exists (elements s); reflexivity]]]|]. split; [reflexivity|]. split; [reflexivity|].
    apply (put_heq a f (reference M f (cur ++ [b]))). intros x. unfold upd. destruct (Nat.eqb x b) eqn:E; [|pose proof (HE x) as Y; unfold upd in Y; rewrite E in Y; exact Y].
    pose proof (HE b) as (A1 & A2 & A3 & A4 & A5). unfold upd in *. rewrite Nat.eqb_refl in *. apply Nat.eqb_eq in E. subst x. repeat split; auto. cbn. congruence.
Qed.

(** *** The attributes of objects *)
Lemma xsi_attr : forall b c, (b = true -> declares_xsi W) -> map tattr (type_attr W b c) = if b then [(xsiURI, lit "type", w_class W c)] else [].
Proof.
  intros b c D. destruct b; [|reflexivity]. specialize (D eq_refl). cbn [type_attr map]. unfold tattr. change (qsplit (lit "xsi:type")) with (lit "xsi", lit "type"). cbn [fst snd].
  unfold translate. change (str_eqb (lit "xsi") (lit "xmlns")) with false. change (str_eqb (lit "xsi") []) with false. change (str_eqb (lit "xsi") (lit "xml")) with false. cbn [andb]. rewrite scope_get.
  assert (F : find (fun pu => str_eqb (lit "xsi") (fst pu)) (w_spaces W) = Some (lit "xsi", xsiURI)).
  { destruct (find _ (w_spaces W)) as [[q u]|] eqn:F.
    - apply find_some in F. destruct F as [F1 F2]. cbn [fst] in F2. apply str_eqb_eq in F2. subst q. f_equal. f_equal. unfold declares_xsi in D. pose proof (sp_distinct _ _ SP) as ND. clear - F1 D ND.
      induction (w_spaces W) as [|[p v] l IH]; [destruct D|]. inversion ND as [|? ? NI ND']; subst. cbn [fst] in NI. destruct F1 as [E1|F1]; destruct D as [E2|D].
      + congruence.
      + exfalso. apply NI. apply in_map_iff. exists (lit "xsi", xsiURI). split; auto. injection E1 as -> ->. auto.
      + exfalso. apply NI. apply in_map_iff. exists (lit "xsi", u). split; auto. injection E2 as -> ->. auto.
      + auto.
    - apply (find_none _ _ F) in D. cbn [fst] in D. rewrite str_eqb_refl in D. discriminate. }
  rewrite F. reflexivity.
Qed.
Lemma skip_xsi : forall o c (s : state), handleAttributes M op o [(xsiURI, lit "type", w_class W c)] s = Ok s.
Proof.
  intros o c s. cbn [handleAttributes]. destruct (str_eqb (lit "type") (op_id op)) eqn:E.
  - destruct (op_manager op) eqn:OM; auto. destruct (proj2 ID OM) as (_ & _ & N & _). apply str_eqb_eq in E. congruence.
  - change (str_eqb (lit "type") (lit "href")) with false. cbn [negb andb]. change (str_eqb (lit "type") (lit "xmlns")) with false. change (str_eqb xsiURI (lit "xmlns")) with false. change (isUserAttribute xsiURI (lit "type")) with false. reflexivity.
Qed.
Lemma slot_attrs_plain : forall c f v x, fits c f v -> In x (map tattr (slot_attrs M W (f, v))) -> exists v', x = ([], fname f, v') /\ fname f <> lit "xmlns".
Proof.
  intros c f v x H I. destruct H as [c f|c f v FO K SH AL|c f l FO K N H KP|c f l FO SH NC ND H|c f l FO SH NC H|c f l FO SH CT H]; cbn [slot_attrs snd fst map] in I; try (destruct I; fail); destruct I as [<-|[]];
    destruct (fo_name _ _ _ _ _ FO) as [_ NCo]; destruct (fo_not _ _ _ _ _ FO) as [N1 _]; rewrite tattr_plain by auto; eexists; (split; [reflexivity|]); intros E; apply N1; rewrite E; cbn; auto.
Qed.
Lemma slots_attrs_plain : forall c slots x, (forall f v, In (f, v) slots -> fits c f v) -> In x (map tattr (flat_map (slot_attrs M W) slots)) -> exists n v', x = ([], n, v') /\ n <> lit "xmlns".
Proof.
  intros c slots x H I. apply in_map_iff in I. destruct I as (y & <- & I). apply in_flat_map in I. destruct I as ([f v] & I & J). destruct (slot_attrs_plain c f v (tattr y)) as (v' & E & N); [apply H; auto|apply in_map; auto|]. eauto.
Qed.
Lemma id_attr_plain : forall id x, In x (map tattr (id_attr op id)) -> x = ([], op_id op, id) /\ op_manager op = true.
Proof.
  intros id x I. unfold id_attr in I. destruct (op_manager op) eqn:OM; [|destruct I]. destruct (proj2 ID OM) as (_ & NC & _). cbn [map] in I. destruct I as [<-|[]]. rewrite tattr_plain by auto. auto.
Qed.
Lemma id_read : forall id o (s : state), handleAttributes M op o (map tattr (id_attr op id)) s = Ok (if op_manager op then set_id o id s else s).
Proof.
  intros id o s. unfold id_attr. destruct (op_manager op) eqn:OM; [|reflexivity]. destruct (proj2 ID OM) as (_ & NC & _). cbn [map]. rewrite tattr_plain by auto. cbn [handleAttributes]. rewrite str_eqb_refl, OM. reflexivity.
Qed.
Lemma find_plain_none : forall l, (forall x, In x l -> exists n v, x = ([], n, v) :> attr) -> getAttributeValue xsiURI (lit "type") l = [].
Proof.
  induction l as [|x l IH]; intros H; cbn [getAttributeValue]; auto. destruct (H x ltac:(cbn; auto)) as (n & v & ->). change (str_eqb [] xsiURI) with false. cbn [andb]. apply IH. intros; apply H; cbn; auto.
Qed.

Definition kid_attrs (f : nat) (d : dobj V) : list wattr := kid_type M W f d ++ id_attr op (d_id d) ++ flat_map (slot_attrs M W) (d_slots d).
Definition made (d : dobj V) : robj V := mkR (d_class d) (attr_fill (d_slots d) (fun _ => Unset)) None None (if op_manager op then Some (d_id d) else None).
Lemma plain_make : forall d, valid d -> attributes_make (id_attr op (d_id d) ++ flat_map (slot_attrs M W) (d_slots d)) (d_class d) (made d) (fun b => flat_map (slot_links b) (d_slots d)).
Proof.
  intros d [c id slots CO ND PI H] s b HB. cbn [d_id d_slots d_class]. rewrite map_app, handleAttributes_app, id_read. cbn [obind'].
  destruct (slot_attrs_read c slots (if op_manager op then set_id b id s else s) b) as (h & E & HE); auto.
  { destruct (op_manager op); cbn; unfold upd; rewrite ?Nat.eqb_refl; rewrite HB; auto. }
  rewrite E. exists h. split; [destruct (op_manager op); reflexivity|]. eapply heq_trans; [exact HE|]. intros x. unfold upd. destruct (Nat.eqb x b) eqn:X.
  - unfold made. cbn [d_id d_slots d_class]. destruct (op_manager op); cbn; unfold upd; rewrite ?Nat.eqb_refl; rewrite HB; cbn; apply same_refl.
  - destruct (op_manager op); cbn; unfold upd; rewrite ?X; apply same_refl.
Qed.
Lemma type_make : forall b c0 al c o r, (b = true -> declares_xsi W) -> attributes_make al c o r -> attributes_make (type_attr W b c0 ++ al) c o r.
Proof.
  intros b c0 al c o r D A s x HB. rewrite map_app, handleAttributes_app, xsi_attr by auto. destruct b; [rewrite skip_xsi|cbn [handleAttributes]]; cbn [obind']; apply A; auto.
Qed.
Lemma class_from_type : forall f b c al, (b = true -> declares_xsi W /\ class_ok M W c) -> (b = false -> c = m_type M f) -> (forall x, In x (map tattr al) -> exists n v, x = ([], n, v)) -> class_from f (type_attr W b c ++ al) c.
Proof.
  intros f b c al D NB P. unfold class_from. rewrite map_app, xsi_attr by (intros B; apply D; auto). destruct b; cbn [app getAttributeValue].
  - right. change (str_eqb xsiURI xsiURI) with true. change (str_eqb (lit "type") (lit "type")) with true. cbn [andb]. split; auto. apply D. auto.
  - left. split; auto. apply find_plain_none. auto.
Qed.
Lemma type_no_declares : forall b c al, (b = true -> declares_xsi W) -> (forall x, In x (map tattr al) -> declares x = false) -> forall x, In x (map tattr (type_attr W b c ++ al)) -> declares x = false.
Proof.
  intros b c al D H x I. rewrite map_app, xsi_attr in I by auto. destruct b; cbn [app] in I; auto. destruct I as [<-|I]; auto.
Qed.
Lemma plain_no_declares : forall x n v, x = ([], n, v) -> n <> lit "xmlns" -> declares x = false.
Proof. intros x n v -> N. cbn [declares]. rewrite (str_eqb_false n) by auto. rewrite andb_false_r. reflexivity. Qed.
Lemma split_declares : forall a, declares (split_attr a) = declares (tattr a) \/ fst (qsplit (fst (fst a))) <> [].
Proof.
  intros [[n raw] v]. cbn [fst split_attr tattr]. destruct (fst (qsplit n)) as [|x p] eqn:E; [|right; discriminate]. left. cbn [declares]. unfold translate. cbn. reflexivity.
Qed.

Lemma split_no_declares : forall b c al, (forall x, In x al -> exists n raw v, x = (n, raw, v) /\ ~ In 58 n /\ n <> lit "xmlns") -> scope_of scope (type_attr W b c ++ al) = scope.
Proof.
  intros b c al H. apply scope_none. intros x I. apply in_app_or in I. destruct I as [I|I].
  - destruct b; [|destruct I]. destruct I as [<-|[]]. reflexivity.
  - destruct (H x I) as (n & raw & v & -> & NC & NX). unfold split_attr. rewrite qsplit_plain by auto. cbn [fst snd]. eapply plain_no_declares; eauto.
Qed.
Lemma tattr_no_declares : forall b c al, (b = true -> declares_xsi W) -> (forall x, In x al -> exists n raw v, x = (n, raw, v) /\ ~ In 58 n /\ n <> lit "xmlns") -> forall x, In x (map tattr (type_attr W b c ++ al)) -> declares x = false.
Proof.
  intros b c al D H. apply type_no_declares; auto. intros x I. apply in_map_iff in I. destruct I as (y & <- & I). destruct (H y I) as (n & raw & v & -> & NC & NX). rewrite tattr_plain by auto. eapply plain_no_declares; eauto.
Qed.
Lemma tattr_no_type : forall al, (forall x, In x al -> exists n raw v, x = (n, raw, v) /\ ~ In 58 n /\ n <> lit "xmlns") -> forall x, In x (map tattr al) -> exists n v, x = ([], n, v).
Proof. intros al H x I. apply in_map_iff in I. destruct I as (y & <- & I). destruct (H y I) as (n & raw & v & -> & NC & NX). rewrite tattr_plain by auto. eauto. Qed.
Lemma kid_attrs_plain : forall d, valid d -> forall x, In x (id_attr op (d_id d) ++ flat_map (slot_attrs M W) (d_slots d)) -> exists n raw v, x = (n, raw, v) /\ ~ In 58 n /\ n <> lit "xmlns".
Proof.
  intros d [c id slots CO ND PI H] x I. cbn [d_id d_slots] in I. apply in_app_or in I. destruct I as [I|I].
  - unfold id_attr in I. destruct (op_manager op) eqn:OM; [|destruct I]. destruct (proj2 ID OM) as (_ & NC & _ & NX). destruct I as [<-|[]]. eauto 6.
  - apply in_flat_map in I. destruct I as ([f v] & I & J). specialize (H f v I).
    destruct H as [c f|c f v FO K SH AL|c f l FO K N H KP|c f l FO SH NC ND' H|c f l FO SH NC H|c f l FO SH CT H]; cbn [slot_attrs snd fst] in J; try (destruct J; fail); destruct J as [<-|[]];
      destruct (fo_name _ _ _ _ _ FO) as [_ NCo]; destruct (fo_not _ _ _ _ _ FO) as [N1 _]; do 3 eexists; (split; [reflexivity|]); split; auto; intros E; apply N1; rewrite E; cbn; auto.
Qed.

(** ** One object in an element *)
Definition kind_ok (f : nat) (cur : list nat) : Prop := match m_kind M f with ManyAdd => True | Other => cur = [] | _ => False end.
Definition item_run (a c f : nat) (x : node) (objs : nat -> list (robj V)) (links : nat -> list link) : Prop :=
  forall k s rest cur d, ready k s -> objects s = Some a :: rest -> r_class (heap s a) = c -> kind_ok f cur ->
    slot_holds f (r_slot (heap s a) f) cur -> (forall y, In y cur -> (y < next s)%nat) -> (a < next s)%nat ->
    runs k (toks scope d x) s (place (next s) (objs (next s)) (put_slot a f (reference M f (cur ++ [next s])) (heap s))) (next s + length (objs (next s))) (links (next s)).

Lemma href_item : forall a c f x, feature_ok M op W c f -> m_contain M f = false ->
  class_ok M W (fst x) /\ m_abstract M (proxy_class M W f (fst x)) = false /\ (proxy_class M W f (fst x) <> m_type M f -> declares_xsi W) /\ plain [34] (snd x) /\ snd x <> [] /\ op_uri op (snd x) <> None ->
  item_run a c f (href_node M W f x) (fun _ => [mkR (proxy_class M W f (fst x)) (fun _ => Unset) None (op_uri op (snd x)) None]) (fun _ => []).
Proof.
  intros a c f x FO NC (CO & AB & DX & PL & NE & OU) k s rest cur d R O C K SH CU LA.
  unfold href_node. unfold proxy_class in *. set (b := negb (str_eqb (w_class W (m_type M f)) (w_class W (fst x))) && m_abstract M (m_type M f)) in *.
  assert (AP : forall y, In y [(lit "href", snd x, snd x)] -> exists n raw v, y = (n, raw, v) /\ ~ In 58 n /\ n <> lit "xmlns").
  { intros y [<-|[]]. do 3 eexists. split; [reflexivity|]. split; [|discriminate]. intros I. vm_compute in I. intuition discriminate. }
  assert (BX : b = true -> declares_xsi W).
  { intros B. apply DX. rewrite B. intros E. assert (X : w_class W (m_type M f) = w_class W (fst x)) by congruence. unfold b in B. rewrite X, str_eqb_refl in B. discriminate. }
  cbn [toks]. rewrite split_no_declares by auto. cbn [app].
  assert (AM : attributes_make (type_attr W b (fst x) ++ [(lit "href", snd x, snd x)]) (if b then fst x else m_type M f) (mkR (if b then fst x else m_type M f) (fun _ => Unset) None (op_uri op (snd x)) None) (fun _ => [])).
  { apply type_make; auto. intros s0 y HB. cbn [map]. rewrite tattr_plain by (intros I; vm_compute in I; intuition discriminate). cbn [handleAttributes]. rewrite (str_eqb_false (lit "href")) by (intros E; apply (proj1 ID); auto). change (str_eqb (lit "href") (lit "href")) with true. cbn [obind'].
    unfold handleProxy. destruct (op_uri op (snd x)) as [u|]; [|congruence]. exists (heap (set_proxy y u s0)). split; [rewrite app_nil_r; destruct s0; reflexivity|]. cbn. rewrite HB. apply heq_refl. }
  destruct (start_object k s a rest c f (type_attr W b (fst x) ++ [(lit "href", snd x, snd x)]) (if b then fst x else m_type M f) (mkR (if b then fst x else m_type M f) (fun _ => Unset) None (op_uri op (snd x)) None) (fun _ => []) cur)
    as (s1 & E1 & A1 & A2 & A3 & A4 & A5 & A6 & A7 & A8 & A9 & A10 & A11); auto.
  { destruct b eqn:B.
    - apply class_from_type; try discriminate; [intros _; split; auto|]. apply tattr_no_type. auto.
    - left. split; [|reflexivity]. apply find_plain_none. cbn [type_attr app]. apply tattr_no_type. auto. }
  { apply tattr_no_declares; auto. }
  destruct (end_object k s1 (Some (next s)) (objects s) (types s)) as (s2 & E2 & B1 & B2 & B3 & B4 & B5 & B6 & B7 & B8 & B9 & B10 & B11); auto.
  { destruct R as (_ & _ & _ & m & EL). exists m. rewrite A5, EL. auto. }
  exists s2. split; [|split; [|split; [|split; [|split]]]].
  - cbn [steps]. rewrite E1. cbn [obind']. rewrite E2. reflexivity.
  - repeat split; try congruence. rewrite B5, A5. auto.
  - auto.
  - rewrite B9. eapply heq_trans; [apply A11|]. rewrite NC. cbn [r_class r_slot r_proxy r_id]. intros y. unfold put_slot, upd, place. cbn [length].
    destruct (Nat.eqb_spec y a) as [->|N1].
    + replace (Nat.eqb a (next s)) with false by (symmetry; apply Nat.eqb_neq; lia). replace ((next s <=? a)%nat && (a <? next s + 1)%nat) with false by lia. apply same_refl.
    + destruct (Nat.eqb_spec y (next s)) as [->|N2].
      * replace ((next s <=? next s)%nat && (next s <? next s + 1)%nat) with true by lia. rewrite Nat.sub_diag. apply same_refl.
      * replace ((next s <=? y)%nat && (y <? next s + 1)%nat) with false by lia. apply same_refl.
  - rewrite B10, A9. cbn. lia.
  - rewrite B11, A10. reflexivity.
Qed.

(** ** Several objects of a feature *)
Fixpoint objs_list (l : list (node * (nat -> list (robj V)) * (nat -> list link))) (n : nat) : list (robj V) :=
  match l with [] => [] | (_, o, _) :: l' => o n ++ objs_list l' (n + length (o n))%nat end.
Fixpoint heads (l : list (node * (nat -> list (robj V)) * (nat -> list link))) (n : nat) : list nat :=
  match l with [] => [] | (_, o, _) :: l' => n :: heads l' (n + length (o n))%nat end.
Fixpoint links_list (l : list (node * (nat -> list (robj V)) * (nat -> list link))) (n : nat) : list link :=
  match l with [] => [] | (_, o, r) :: l' => r n ++ links_list l' (n + length (o n))%nat end.
Definition lines_toks (d : Z) (l : list node) : list token := flat_map (fun x => TText (10 :: XmlOutProofs.blanks d) :: toks scope d x) l.

Lemma items_run : forall l a c f, (forall x o r, In (x, o, r) l -> item_run a c f x o r) -> (forall x o r n, In (x, o, r) l -> (0 < length (o n))%nat) -> l <> [] ->
  forall k s rest cur d, ready k s -> objects s = Some a :: rest -> r_class (heap s a) = c -> kind_ok f cur -> (m_kind M f = Other -> length l = 1%nat) ->
    slot_holds f (r_slot (heap s a) f) cur -> (forall y, In y cur -> (y < next s)%nat) -> (a < next s)%nat ->
    runs k (lines_toks d (map (fun x => fst (fst x)) l)) s (place (next s) (objs_list l (next s)) (put_slot a f (reference M f (cur ++ heads l (next s))) (heap s))) (next s + length (objs_list l (next s))) (links_list l (next s)).
Proof.
  induction l as [|[[x o] r] l IH]; intros a c f H P NE k s rest cur d R O C K KO SH CU LA; [congruence|]. unfold lines_toks. cbn [map flat_map fst objs_list heads links_list]. fold (lines_toks d (map (fun x => fst (fst x)) l)).
  pose proof (H x o r ltac:(cbn; auto) k s rest cur d R O C K SH CU LA) as R1.
  destruct l as [|y l].
  - cbn [map lines_toks flat_map objs_list heads links_list]. rewrite !app_nil_r. cbn [app]. apply runs_text; auto.
  - assert (MM : m_kind M f = ManyAdd).
    { unfold kind_ok in K. destruct (m_kind M f); try (destruct K; fail); auto. specialize (KO eq_refl). discriminate. }
    set (n1 := (next s + length (o (next s)))%nat).
    replace (next s + length (o (next s) ++ objs_list (y :: l) n1))%nat with (n1 + length (objs_list (y :: l) n1))%nat by (unfold n1; rewrite app_length; lia).
    set (h1 := place (next s) (o (next s)) (put_slot a f (reference M f (cur ++ [next s])) (heap s))) in *.
    eapply runs_heq; [apply (runs_seq k (TText (10 :: XmlOutProofs.blanks d) :: toks scope d x) (lines_toks d (map (fun x => fst (fst x)) (y :: l))) s h1 n1 (r (next s))
      (place n1 (objs_list (y :: l) n1) (put_slot a f (reference M f ((cur ++ [next s]) ++ heads (y :: l) n1)) h1)) (n1 + length (objs_list (y :: l) n1)) (links_list (y :: l) n1))|].
    + apply runs_text; eauto.
    + intros s1 (F & RD & HH & N & RF). destruct F as (F1 & F2 & F3 & F4 & F5 & F6 & F7).
      assert (CL : r_class (heap s1 a) = c).
      { destruct (HH a) as (X & _). rewrite X. unfold h1. rewrite place_out by lia. unfold put_slot, upd. rewrite Nat.eqb_refl. auto. }
      assert (SH1 : slot_holds f (r_slot (heap s1 a) f) (cur ++ [next s])).
      { right. unfold is_many. rewrite MM. split; auto. destruct (HH a) as (_ & _ & _ & _ & X). rewrite X. unfold h1. rewrite place_out by lia. unfold put_slot, upd. rewrite !Nat.eqb_refl. cbn. rewrite Nat.eqb_refl. unfold reference, is_many. rewrite MM. auto. }
      pose proof (P x o r (next s) ltac:(cbn; auto)) as PO.
      pose proof (IH a c f) as IH1. specialize (IH1 ltac:(intros; apply H; cbn; auto) ltac:(intros; eapply P; cbn; eauto) ltac:(discriminate) k s1 rest (cur ++ [next s]) d RD).
      rewrite N in IH1. unfold n1 in *. eapply runs_heq; [apply IH1; auto; try congruence|].
      * unfold kind_ok. rewrite MM. auto.
      * intros z I. apply in_app_or in I. destruct I as [I|[<-|[]]]; [specialize (CU z I)|]; lia.
      * lia.
      * apply place_heq. apply put_heq. apply HH.
    + unfold h1, n1. rewrite <- (app_assoc cur). cbn [app]. eapply heq_trans; [apply place_heq; apply put_place; lia|]. eapply heq_trans; [apply place_app|]. apply place_heq. apply put_put.
Qed.

(** ** The values in elements *)
Lemma datas_run : forall l k s a rest c f d acc, feature_ok M op W c f -> m_kind M f = Many -> (forall v, In v l -> shown M f v) -> ready k s -> objects s = Some a :: rest -> r_class (heap s a) = c ->
  datas (r_slot (heap s a) f) = acc -> (m_unique M f = false \/ ForallOrdPairs (fun x y => m_same M y x = false) (acc ++ l)) -> l <> [] ->
  runs k (lines_toks d (map (fun v => Elem (fname f) [] (CText (m_show M f v))) l)) s (put_slot a f (SDatas (acc ++ l)) (heap s)) (next s) [].
Proof.
  induction l as [|v l IH]; intros k s a rest c f d acc FO K SW R O C DA KP NE; [congruence|]. unfold lines_toks. cbn [map flat_map]. fold (lines_toks d (map (fun v => Elem (fname f) [] (CText (m_show M f v))) l)).
  pose proof (data_run k s a rest c f (m_show M f v) d R O C FO K) as R1.
  assert (AD : add_data M f (datas (r_slot (heap s a) f)) (m_read M f (m_show M f v)) = acc ++ [v]).
  { rewrite (SW v) by (cbn; auto). rewrite DA. unfold add_data. destruct KP as [->|FP]; [reflexivity|]. replace (existsb (fun y => m_same M v y) acc) with false; [rewrite andb_false_r; auto|].
    clear - FP. induction acc as [|x acc IH]; cbn [existsb]; auto. cbn [app] in FP. inversion FP as [|? ? FA FP']; subst. rewrite <- IH by auto. rewrite Forall_forall in FA. rewrite FA by (apply in_or_app; cbn; auto). auto. }
  rewrite AD in R1. destruct l as [|v' l].
  - cbn [map lines_toks flat_map]. rewrite app_nil_r. apply runs_text; auto.
  - apply (runs_heq _ _ _ (put_slot a f (SDatas ((acc ++ [v]) ++ v' :: l)) (put_slot a f (SDatas (acc ++ [v])) (heap s)))).
    + change (@nil link) with (@nil link ++ []). eapply runs_seq; [apply runs_text; eauto|]. intros s1 (F & RD & HH & N & RF). destruct F as (F1 & F2 & F3 & F4 & F5 & F6 & F7). destruct (HH a) as (X1 & _ & _ & _ & X5). unfold put_slot, upd in X1, X5. rewrite Nat.eqb_refl in X1, X5. cbn in X1, X5.
      rewrite <- N. eapply runs_heq; [eapply (IH k s1 a rest c f d (acc ++ [v])); auto|].
      * intros; apply SW; cbn; auto.
      * congruence.
      * congruence.
      * rewrite X5, Nat.eqb_refl. auto.
      * rewrite <- app_assoc. auto.
      * discriminate.
      * apply put_heq. auto.
    + rewrite <- app_assoc. apply put_put.
Qed.

(** ** Objects with their contents *)
Fixpoint kids_objs (links : nat -> nat -> list nat -> rslot V) (a f : nat) (l : list (dobj V)) (n : nat) : list (robj V) :=
  match l with [] => [] | k :: l' => expect M op W links k n (Some (a, f)) ++ kids_objs links a f l' (n + dsize k)%nat end.
Definition slot_objs (links : nat -> nat -> list nat -> rslot V) (a : nat) (fv : nat * dval V) (n : nat) : list (robj V) :=
  match snd fv with
  | DKids l => kids_objs links a (fst fv) l n
  | DHrefs l => map (fun x => mkR (proxy_class M W (fst fv) (fst x)) (fun _ => Unset) None (op_uri op (snd x)) None) l
  | _ => []
  end.
Fixpoint slots_objs (links : nat -> nat -> list nat -> rslot V) (a : nat) (slots : list (nat * dval V)) (n : nat) : list (robj V) :=
  match slots with [] => [] | fv :: rest => slot_objs links a fv n ++ slots_objs links a rest (n + vsize (snd fv))%nat end.
Lemma expect_eq : forall links c id slots b parent,
  expect M op W links (DObj c id slots) b parent = mkR c (slot_at M links b (slots_at (S b) slots)) parent None (if op_manager op then Some id else None) :: slots_objs links b slots (S b).
Proof.
  intros links c id slots b parent. cbn [expect]. f_equal. generalize (S b). induction slots as [|[f v] slots IH]; intros n; cbn [slots_objs]; auto. rewrite <- IH. f_equal. unfold slot_objs. cbn [snd fst].
  destruct v; auto. revert n. induction l as [|k l IHl]; intros n; cbn [kids_objs]; auto. rewrite <- IHl. auto.
Qed.
Lemma expect_length : forall links n d b parent, (dsize d < n)%nat -> length (expect M op W links d b parent) = dsize d.
Proof.
  intros links. induction n as [|n IH]; intros d b parent L; [lia|]. destruct d as [c id slots]. rewrite expect_eq. cbn [length].
  assert (X : forall slots m, (forall f l k, In (f, DKids l) slots -> In k l -> (dsize k < n)%nat) -> length (slots_objs links b slots m) = fold_right (fun fv n => (vsize (snd fv) + n)%nat) 0%nat slots).
  { clear - IH. induction slots as [|[f v] slots IHs]; intros m H; cbn [slots_objs fold_right]; auto. rewrite app_length, IHs by (intros; eapply H; cbn; eauto). f_equal. unfold slot_objs. cbn [snd fst]. destruct v as [|v|l|l|l|l]; auto; [rewrite map_length; auto|].
    assert (HK : forall k, In k l -> (dsize k < n)%nat) by (intros; eapply H; cbn; eauto). clear H IHs. revert m. induction l as [|k l IHl]; intros m; cbn [kids_objs vsize kids_size fold_right]; auto. rewrite app_length, IH by (apply HK; cbn; auto). fold (kids_size l). f_equal. apply IHl. intros; apply HK; cbn; auto. }
  rewrite X.
  - reflexivity.
  - intros f l k I J. pose proof (kid_smaller target slots f l k c id I J). lia.
Qed.
Lemma expect_len : forall links d b parent, length (expect M op W links d b parent) = dsize d.
Proof. intros. eapply expect_length. eauto. Qed.

Fixpoint d_links (d : dobj V) (b : nat) {struct d} : list link :=
  match d with
  | DObj _ _ slots =>
      flat_map (slot_links b) slots ++
      (fix go (slots : list (nat * dval V)) (n : nat) : list link :=
         match slots with
         | [] => []
         | (f, v) :: rest =>
             match v with
             | DKids l => (fix kids (l : list (dobj V)) (n : nat) : list link := match l with [] => [] | k :: l' => d_links k n ++ kids l' (n + dsize k)%nat end) l n
             | _ => []
             end ++ go rest (n + vsize v)%nat
         end) slots (S b)
  end.
Fixpoint kids_links (l : list (dobj V)) (n : nat) : list link := match l with [] => [] | k :: l' => d_links k n ++ kids_links l' (n + dsize k)%nat end.
Definition below_links (fv : nat * dval V) (n : nat) : list link := match snd fv with DKids l => kids_links l n | _ => [] end.
Fixpoint slots_links (slots : list (nat * dval V)) (n : nat) : list link := match slots with [] => [] | fv :: rest => below_links fv n ++ slots_links rest (n + vsize (snd fv))%nat end.
Lemma d_links_eq : forall c id slots b, d_links (DObj c id slots) b = flat_map (slot_links b) slots ++ slots_links slots (S b).
Proof.
  intros c id slots b. cbn [d_links]. f_equal. generalize (S b). induction slots as [|[f v] slots IH]; intros n; cbn [slots_links]; auto. rewrite <- IH. f_equal.
Qed.

Definition no_links (a f : nat) (l : list nat) : rslot V := Unset.
Definition is_selected (v : dval V) : bool := match v with DDatas _ | DHrefs _ | DKids _ => true | _ => false end.
Definition efill (a : nat) (l : list (nat * dval V * nat)) (g : nat -> rslot V) : nat -> rslot V :=
  fold_left (fun g x => let '(f, v, n) := x in if is_selected v then upd g f (value_at M no_links a f v n) else g) l g.
Definition fill (a : nat) (l : list (nat * dval V * nat)) (h : nat -> robj V) : nat -> robj V := upd h a (with_slots (h a) (efill a l (r_slot (h a)))).

Definition kid_items (a f : nat) (l : list (dobj V)) : list (node * (nat -> list (robj V)) * (nat -> list link)) :=
  map (fun k => (element M op W (fname f) (kid_type M W f k) k, fun n => expect M op W no_links k n (Some (a, f)), d_links k)) l.
Lemma kid_items_eq : forall a f l n, objs_list (kid_items a f l) n = kids_objs no_links a f l n /\ heads (kid_items a f l) n = kids_at n l /\ links_list (kid_items a f l) n = kids_links l n.
Proof.
  intros a f. induction l as [|k l IH]; intros n; cbn [kid_items map objs_list heads links_list kids_objs kids_at kids_links]; auto. fold (kid_items a f l). rewrite expect_len. destruct (IH (n + dsize k)%nat) as (-> & -> & ->). auto.
Qed.
Definition href_items (f : nat) (l : list (nat * str)) : list (node * (nat -> list (robj V)) * (nat -> list link)) :=
  map (fun x => (href_node M W f x, fun _ => [mkR (proxy_class M W f (fst x)) (fun _ => Unset) None (op_uri op (snd x)) None], fun _ => [])) l.
Lemma href_items_eq : forall a f l n, objs_list (href_items f l) n = slot_objs no_links a (f, DHrefs l) n /\ heads (href_items f l) n = seq n (length l) /\ links_list (href_items f l) n = [].
Proof.
  intros a f. unfold slot_objs. cbn [snd fst]. induction l as [|k l IH]; intros n; cbn [href_items map objs_list heads links_list length seq]; auto. fold (href_items f l). destruct (IH (n + 1)%nat) as (-> & -> & ->). replace (n + 1)%nat with (S n) by lia. auto.
Qed.

Lemma slot_run : forall c f v a k s rest d, fits c f v -> ready k s -> objects s = Some a :: rest -> r_class (heap s a) = c -> (a < next s)%nat -> (is_selected v = true -> r_slot (heap s a) f = Unset) ->
  (forall l x, v = DKids l -> In x l -> item_run a c f (element M op W (fname f) (kid_type M W f x) x) (fun n => expect M op W no_links x n (Some (a, f))) (d_links x)) ->
  runs k (lines_toks d (slot_nodes M op W (f, v))) s (place (next s) (slot_objs no_links a (f, v) (next s)) (if is_selected v then put_slot a f (value_at M no_links a f v (next s)) (heap s) else heap s)) (next s + vsize v) (below_links (f, v) (next s)).
Proof.
  intros c f v a k s rest d H R O C LA UN IT.
  assert (NIL : runs k [] s (place (next s) [] (heap s)) (next s + 0) []) by (rewrite Nat.add_0_r; eapply runs_heq; [apply runs_nil; auto|]; intros x; pose proof (place_nil (next s) (heap s) x) as (A1 & A2 & A3 & A4 & A5); repeat split; auto).
  destruct H as [c f|c f v FO K SH AL|c f l FO K N H KP|c f l FO SH NC ND H|c f l FO SH NC H|c f l FO SH CT H]; unfold slot_objs, below_links; cbn [slot_nodes snd fst is_selected vsize value_at]; auto.
  - rewrite Nat.add_0_r. assert (X : runs k (lines_toks d (map (fun v => Elem (fname f) [] (CText (m_show M f v))) l)) s (put_slot a f (SDatas ([] ++ l)) (heap s)) (next s) []).
    { eapply datas_run; eauto; [intros; apply H; auto|]. rewrite (UN eq_refl). auto. }
    eapply runs_heq; [exact X|]. intros x. pose proof (place_nil (next s) (put_slot a f (SDatas l) (heap s)) x) as (A1 & A2 & A3 & A4 & A5). repeat split; auto.
  - destruct (href_items_eq a f l (next s)) as (E1 & E2 & E3). unfold slot_objs in E1. cbn [snd fst] in E1.
    replace (map (href_node M W f) l) with (map (fun x => fst (fst x)) (href_items f l)) by (unfold href_items; rewrite map_map; reflexivity).
    rewrite <- E1, <- E2, <- E3. replace (next s + length l)%nat with (next s + length (objs_list (href_items f l) (next s)))%nat by (rewrite E1, map_length; auto).
    change (heads (href_items f l) (next s)) with ([] ++ heads (href_items f l) (next s)). eapply items_run with (c := c); eauto.
    + intros x o r I. unfold href_items in I. apply in_map_iff in I. destruct I as (y & E & I). injection E as <- <- <-. apply href_item; auto. destruct y as [c' u]. cbn [fst snd]. apply (H c' u I).
    + intros x o r n I. unfold href_items in I. apply in_map_iff in I. destruct I as (y & E & I). injection E as <- <- <-. cbn. lia.
    + unfold shaped in SH. destruct (m_kind M f); try (destruct SH; fail); destruct l; cbn in *; congruence.
    + unfold kind_ok. unfold shaped in SH. destruct (m_kind M f); auto.
    + intros E. unfold shaped in SH. rewrite E in SH. unfold href_items. rewrite map_length. auto.
    + left. auto.
    + intros y [].
  - destruct (kid_items_eq a f l (next s)) as (E1 & E2 & E3).
    replace (map (fun x => element M op W (fname f) (kid_type M W f x) x) l) with (map (fun x => fst (fst x)) (kid_items a f l)) by (unfold kid_items; rewrite map_map; reflexivity).
    rewrite <- E1, <- E2, <- E3. replace (next s + kids_size l)%nat with (next s + length (objs_list (kid_items a f l) (next s)))%nat.
    2:{ rewrite E1. f_equal. clear - target. generalize (next s). induction l as [|x l IH]; intros n; cbn [kids_objs kids_size fold_right]; auto. rewrite app_length, expect_len. f_equal. apply IH. }
    change (heads (kid_items a f l) (next s)) with ([] ++ heads (kid_items a f l) (next s)). eapply items_run with (c := c); eauto.
    + intros x o r I. unfold kid_items in I. apply in_map_iff in I. destruct I as (y & E & I). injection E as <- <- <-. eapply IT; eauto.
    + intros x o r n I. unfold kid_items in I. apply in_map_iff in I. destruct I as (y & E & I). injection E as <- <- <-. rewrite expect_len. destruct y. cbn. lia.
    + unfold shaped in SH. destruct (m_kind M f); try (destruct SH; fail); destruct l; cbn in *; congruence.
    + unfold kind_ok. unfold shaped in SH. destruct (m_kind M f); auto.
    + intros E. unfold shaped in SH. rewrite E in SH. unfold kid_items. rewrite map_length. auto.
    + left. auto.
    + intros y [].
Qed.

Definition slots_total (slots : list (nat * dval V)) : nat := fold_right (fun fv n => (vsize (snd fv) + n)%nat) 0%nat slots.
Lemma kids_objs_length : forall links a f l n, length (kids_objs links a f l n) = kids_size l.
Proof. intros links a f. induction l as [|x l IH]; intros n; cbn [kids_objs kids_size fold_right]; auto. rewrite app_length, expect_len. f_equal. apply IH. Qed.
Lemma slot_objs_length : forall links a fv n, length (slot_objs links a fv n) = vsize (snd fv).
Proof. intros links a [f v] n. unfold slot_objs. cbn [fst snd]. destruct v; cbn [vsize]; auto; [apply map_length|apply kids_objs_length]. Qed.
Lemma slots_objs_length : forall links a slots n, length (slots_objs links a slots n) = slots_total slots.
Proof. intros links a. induction slots as [|fv slots IH]; intros n; cbn [slots_objs slots_total fold_right]; auto. rewrite app_length, slot_objs_length. f_equal. apply IH. Qed.
Lemma dsize_total : forall d, dsize d = S (slots_total (d_slots d)).
Proof. intros [c id slots]. reflexivity. Qed.

Lemma efill_ext : forall a l g g', (forall f, g f = g' f) -> forall f, efill a l g f = efill a l g' f.
Proof.
  intros a. induction l as [|[[f v] n] l IH]; intros g g' H x; cbn [efill fold_left]; auto. apply IH. intros y. destruct (is_selected v); auto. unfold upd. destruct (Nat.eqb y f); auto.
Qed.
Lemma fill_heq : forall a l h h', heq h h' -> heq (fill a l h) (fill a l h').
Proof.
  intros a l h h' H. apply upd_heq; auto. destruct (H a) as (A1 & A2 & A3 & A4 & A5). repeat split; cbn; auto. apply efill_ext. auto.
Qed.
Lemma fill_place : forall a l n objs h, (a < n)%nat -> heq (fill a l (place n objs h)) (place n objs (fill a l h)).
Proof.
  intros a l n objs h L x. unfold fill, upd. rewrite (place_out n objs h a) by lia. destruct (Nat.eqb_spec x a) as [->|N].
  - rewrite place_out by lia. rewrite Nat.eqb_refl. apply same_refl.
  - unfold place. destruct ((n <=? x)%nat && (x <? n + length objs)%nat) eqn:E.
    + rewrite (nth_indep objs (h x) (if Nat.eqb x a then with_slots (h a) (efill a l (r_slot (h a))) else h x)) by lia. apply same_refl.
    + apply Nat.eqb_neq in N. rewrite N. apply same_refl.
Qed.
Lemma fill_put : forall a f v n l h, is_selected v = true -> heq (fill a l (put_slot a f (value_at M no_links a f v n) h)) (fill a ((f, v, n) :: l) h).
Proof.
  intros a f v n l h SE x. unfold fill, put_slot, upd. rewrite Nat.eqb_refl. destruct (Nat.eqb x a); [|apply same_refl]. repeat split; auto. cbn. intros g. rewrite SE. reflexivity.
Qed.
Lemma lines_app : forall d l l', lines_toks d (l ++ l') = lines_toks d l ++ lines_toks d l'.
Proof. intros. unfold lines_toks. apply flat_map_app. Qed.

Lemma slots_run : forall slots c a k s rest d, (forall f v, In (f, v) slots -> fits c f v) -> NoDup (map fst slots) -> ready k s -> objects s = Some a :: rest -> r_class (heap s a) = c -> (a < next s)%nat ->
  (forall f v, In (f, v) slots -> is_selected v = true -> r_slot (heap s a) f = Unset) ->
  (forall f l x, In (f, DKids l) slots -> In x l -> item_run a c f (element M op W (fname f) (kid_type M W f x) x) (fun n => expect M op W no_links x n (Some (a, f))) (d_links x)) ->
  runs k (lines_toks d (flat_map (slot_nodes M op W) slots)) s (place (next s) (slots_objs no_links a slots (next s)) (fill a (slots_at (next s) slots) (heap s))) (next s + slots_total slots) (slots_links slots (next s)).
Proof.
  induction slots as [|[f v] slots IH]; intros c a k s rest d F ND R O C LA UN IT.
  - cbn [flat_map lines_toks slots_objs slots_at slots_total fold_right slots_links]. rewrite Nat.add_0_r. eapply runs_heq; [apply runs_nil; auto|]. intros x. unfold place. cbn [length]. replace ((next s <=? x)%nat && (x <? next s + 0)%nat) with false by lia. unfold fill, upd. destruct (Nat.eqb_spec x a) as [->|]; [|apply same_refl]. repeat split; auto.
  - cbn [flat_map slots_objs slots_at slots_total fold_right slots_links snd]. fold (slots_total slots). rewrite lines_app.
    inversion ND as [|? ? NI ND']; subst. cbn [fst] in NI.
    pose proof (slot_run (r_class (heap s a)) f v a k s rest d ltac:(apply F; cbn; auto) R O eq_refl LA ltac:(intros; eapply UN; cbn; eauto) ltac:(intros l x -> I; eapply IT; cbn; eauto)) as R1.
    set (h1 := place (next s) (slot_objs no_links a (f, v) (next s)) (if is_selected v then put_slot a f (value_at M no_links a f v (next s)) (heap s) else heap s)) in *.
    set (n1 := (next s + vsize v)%nat) in *.
    apply (runs_heq _ _ _ (place n1 (slots_objs no_links a slots n1) (fill a (slots_at n1 slots) h1))).
    + eapply runs_seq; [exact R1|]. intros s1 (FR & RD & HH & N & RF). destruct FR as (F1 & F2 & F3 & F4 & F5 & F6 & F7).
      assert (HA : same_object (heap s1 a) (if is_selected v then put_slot a f (value_at M no_links a f v (next s)) (heap s) a else heap s a)).
      { eapply same_trans; [apply HH|]. unfold h1. rewrite place_out by lia. destruct (is_selected v); apply same_refl. }
      destruct HA as (X1 & _ & _ & _ & X5).
      replace (next s + (vsize v + slots_total slots))%nat with (next s1 + slots_total slots)%nat by (unfold n1 in N; lia). rewrite <- N. eapply runs_heq; [eapply (IH (r_class (heap s a)) a k s1 rest d); auto|].
      * intros; apply F; cbn; auto.
      * congruence.
      * rewrite X1. destruct (is_selected v); auto. unfold put_slot, upd. rewrite Nat.eqb_refl. auto.
      * unfold n1 in N. lia.
      * intros g w I SE. rewrite X5. destruct (is_selected v); [|eapply UN; cbn; eauto]. unfold put_slot, upd. rewrite Nat.eqb_refl. cbn [r_slot]. destruct (Nat.eqb_spec g f) as [->|]; [|eapply UN; cbn; eauto].
        exfalso. apply NI. apply in_map_iff. exists (f, w). auto.
      * intros g l x I J. eapply IT; cbn; eauto.
      * apply place_heq. apply fill_heq. auto.
    + eapply heq_trans; [apply place_heq; unfold h1; apply fill_place; auto|]. unfold n1. replace (vsize v) with (length (slot_objs no_links a (f, v) (next s))) by (rewrite slot_objs_length; auto).
      eapply heq_trans; [apply place_app|]. apply place_heq. destruct (is_selected v) eqn:SE; [apply fill_put; auto|]. intros x. unfold fill, upd. destruct (Nat.eqb x a); [|apply same_refl]. repeat split; auto. cbn [with_slots r_slot efill fold_left]. rewrite SE. auto.
Qed.

Lemma attr_out : forall slots g f, ~ In f (map fst slots) -> attr_fill slots g f = g f.
Proof.
  induction slots as [|[f0 v0] slots IH]; intros g f N; cbn [attr_fill fold_left]; auto. cbn [map fst] in N. fold (attr_fill slots). unfold attr_fill in IH. rewrite IH by (intros I; apply N; cbn; auto). cbn [snd fst]. destruct v0; auto. unfold upd. destruct (Nat.eqb_spec f f0) as [->|]; auto. exfalso. apply N. cbn. auto.
Qed.
Lemma efill_out : forall a slots n g f, ~ In f (map fst slots) -> efill a (slots_at n slots) g f = g f.
Proof.
  intros a. induction slots as [|[f0 v0] slots IH]; intros n g f N; cbn [slots_at efill fold_left]; auto. cbn [map fst] in N. unfold efill in IH. rewrite IH by (intros I; apply N; cbn; auto). destruct (is_selected v0); auto. unfold upd. destruct (Nat.eqb_spec f f0) as [->|]; auto. exfalso. apply N. cbn. auto.
Qed.
Lemma efill_attr : forall a slots n g g', NoDup (map fst slots) -> (forall f, In f (map fst slots) -> g' f = Unset) -> (forall f, g f = attr_fill slots g' f) -> forall f,
  efill a (slots_at n slots) g f = match find (fun x => Nat.eqb (fst (fst x)) f) (slots_at n slots) with Some (f, v, b) => value_at M no_links a f v b | None => g' f end.
Proof.
  intros a. induction slots as [|[f0 v0] slots IH]; intros n g g' ND U H f; cbn [slots_at efill fold_left find fst].
  - apply H.
  - cbn [map fst] in ND, U. inversion ND as [|? ? NI ND']; subst. fold (efill a (slots_at (n + vsize v0) slots) (if is_selected v0 then upd g f0 (value_at M no_links a f0 v0 n) else g)).
    destruct (Nat.eqb_spec f0 f) as [->|N].
    + rewrite efill_out by auto. destruct (is_selected v0) eqn:SE; [unfold upd; rewrite Nat.eqb_refl; auto|]. rewrite H. cbn [attr_fill fold_left]. pose proof (attr_out slots) as AO. unfold attr_fill in AO. rewrite AO by auto. cbn [snd fst].
      destruct v0; try discriminate; cbn [value_at no_links]; auto; [apply U; cbn; auto|unfold upd; rewrite Nat.eqb_refl; auto|apply U; cbn; auto].
    + transitivity (efill a (slots_at (n + vsize v0) slots) (attr_fill slots g') f).
      * assert (X : forall slots n g g', g f = g' f -> efill a (slots_at n slots) g f = efill a (slots_at n slots) g' f).
        { clear. induction slots as [|[f1 v1] slots IH]; intros n g g' H; cbn [slots_at efill fold_left]; auto. apply IH. destruct (is_selected v1); auto. unfold upd. destruct (Nat.eqb f f1); auto. }
        apply X. assert (Y : g f = attr_fill slots g' f).
        { rewrite H. cbn [attr_fill fold_left snd fst]. assert (Z : forall slots g g', g f = g' f -> attr_fill slots g f = attr_fill slots g' f).
          { clear. induction slots as [|[f1 v1] slots IH]; intros g g' H; cbn [attr_fill fold_left snd fst]; auto. apply IH. destruct v1; auto. unfold upd. destruct (Nat.eqb f f1); auto. }
          apply (Z slots). destruct v0; auto. unfold upd. destruct (Nat.eqb_spec f f0); congruence. }
        destruct (is_selected v0); auto. unfold upd. destruct (Nat.eqb_spec f f0); congruence.
      * apply IH; auto. intros; apply U; cbn; auto.
Qed.
Lemma filled : forall b slots n f, NoDup (map fst slots) -> efill b (slots_at n slots) (attr_fill slots (fun _ => Unset)) f = slot_at M no_links b (slots_at n slots) f.
Proof. intros b slots n f ND. rewrite (efill_attr b slots n _ (fun _ => Unset)); auto. Qed.

Lemma contents_toks : forall e d l, match contents_of l with CNone => [] | CText [] => [] | CText t => [TText t] | CKids l => flat_map (fun k => TText (10 :: XmlOutProofs.blanks (d + 1)) :: toks e (d + 1) k) l ++ [TText (10 :: XmlOutProofs.blanks d)] end =
  flat_map (fun k => TText (10 :: XmlOutProofs.blanks (d + 1)) :: toks e (d + 1) k) l ++ match l with [] => [] | _ => [TText (10 :: XmlOutProofs.blanks d)] end.
Proof. intros e d [|x l]; reflexivity. Qed.

Lemma runs_end_text : forall k (l : list node) t ts s h n r, runs k ts s h n r -> runs k (ts ++ match l with [] => [] | _ => [TText t] end) s h n r.
Proof.
  intros k l t ts s h n r H. destruct l; [rewrite app_nil_r; auto|]. rewrite <- (app_nil_r r). eapply runs_seq; [exact H|]. intros s1 (F & R & HH & N & RF). subst n. apply runs_text; auto. eapply runs_heq; [apply runs_nil; auto|auto].
Qed.

Lemma kid_item : forall m d, (dsize d < m)%nat -> valid d -> forall a c f, feature_ok M op W c f -> m_contain M f = true ->
  (w_class W (d_class d) = w_class W (m_type M f) -> d_class d = m_type M f) -> (w_class W (d_class d) <> w_class W (m_type M f) -> declares_xsi W) ->
  item_run a c f (element M op W (fname f) (kid_type M W f d) d) (fun n => expect M op W no_links d n (Some (a, f))) (d_links d).
Proof.
  induction m as [|m IH]; intros d L VD a c f FO MC CS CX; [lia|]. intros k s rest cur dd R O C K SH CU LA. pose proof VD as VD'. destruct VD' as [c' id slots CO ND PI H].
  rewrite element_eq. cbn [toks]. set (bx := negb (str_eqb (w_class W (m_type M f)) (w_class W c'))).
  assert (BX : bx = true -> declares_xsi W).
  { intros B. apply CX. cbn [d_class]. intros E. unfold bx in B. rewrite E, str_eqb_refl in B. discriminate. }
  assert (BF : bx = false -> c' = m_type M f).
  { intros B. apply CS. cbn [d_class]. unfold bx in B. apply negb_false_iff in B. apply str_eqb_eq in B. auto. }
  pose proof (kid_attrs_plain _ VD) as KP. cbn [d_id d_slots] in KP. unfold kid_type. cbn [d_class]. fold bx. rewrite split_no_declares by auto.
  set (al := id_attr op id ++ flat_map (slot_attrs M W) slots) in *. rewrite contents_toks. set (b := next s).
  destruct (start_object k s a rest c f (type_attr W bx c' ++ al) c' (made (DObj c' id slots)) (fun b => flat_map (slot_links b) slots) cur)
    as (s1 & E1 & A1 & A2 & A3 & A4 & A5 & A6 & A7 & A8 & A9 & A10 & A11); auto.
  { destruct CO as [AB _]. auto. }
  { apply class_from_type; [intros B; split; auto|auto|apply tattr_no_type; auto]. }
  { apply tattr_no_declares; auto. }
  { apply type_make; auto. apply (plain_make (DObj c' id slots)). auto. }
  rewrite MC in A11. cbn [made r_class r_slot r_proxy r_id d_class d_slots d_id] in A11. fold b in A3, A9, A10, A11.
  assert (HB : same_object (heap s1 b) (mkR c' (attr_fill slots (fun _ => Unset)) (Some (a, f)) None (if op_manager op then Some id else None))).
  { eapply same_trans; [apply A11|]. unfold put_slot, upd. rewrite Nat.eqb_refl. replace (Nat.eqb b a) with false by (symmetry; apply Nat.eqb_neq; unfold b; lia). apply same_refl. }
  destruct HB as (X1 & X2 & X3 & X4 & X5). cbn [r_class r_slot r_parent r_proxy r_id] in X1, X2, X3, X4, X5.
  pose proof (slots_run slots c' b (S k) s1 (objects s) (dd + 1) H ND A8 A3 X1 ltac:(lia)) as R2.
  destruct R2 as (s2 & E2 & (F1 & F2 & F3 & F4 & F5 & F6 & F7) & RD2 & HH2 & N2 & RF2).
  { intros g v I SE. rewrite X5. assert (Y : forall slots g0, g0 g = Unset -> (forall v, In (g, v) slots -> is_selected v = true) -> attr_fill slots g0 g = Unset).
    { clear. induction slots as [|[f v] slots IH]; intros g0 G H; cbn [attr_fill fold_left]; auto. apply IH; [|intros; apply H; cbn; auto]. cbn [snd fst]. destruct v; auto. unfold upd. destruct (Nat.eqb_spec g f) as [->|]; auto. specialize (H (DData v) ltac:(cbn; auto)). discriminate. }
    apply Y; auto. intros w J. replace w with v; auto. clear - ND I J. induction slots as [|[f u] slots IH]; [destruct I|]. cbn [map fst] in ND. inversion ND as [|? ? NI ND']; subst. destruct I as [I|I]; destruct J as [J|J]; auto.
    - congruence.
    - exfalso. apply NI. injection I as -> ->. apply in_map_iff. exists (g, w). auto.
    - exfalso. apply NI. injection J as -> ->. apply in_map_iff. exists (g, v). auto. }
  { intros g l x I J. pose proof (kid_smaller target slots g l x c' id I J) as KS. pose proof (H _ _ I) as FK. inversion FK as [| | | | |? ? ? FO' SH' CT' HK]; subst. destruct (HK x J) as (K1 & K2 & K3). apply IH; auto. lia. }
  destruct (end_object k s2 (Some b) (objects s) (types s)) as (s3 & E3 & B1 & B2 & B3 & B4 & B5 & B6 & B7 & B8 & B9 & B10 & B11); auto; try congruence.
  { destruct R as (_ & _ & _ & q & EL). exists q. rewrite F5, A5, EL. auto. }
  exists s3. split; [|split; [|split; [|split; [|split]]]].
  - cbn [app]. cbn [steps]. rewrite E1. cbn [obind']. rewrite steps_app. rewrite steps_app. unfold lines_toks in E2. rewrite E2. cbn [obind'].
    assert (T2 : steps M op (match flat_map (slot_nodes M op W) slots with [] => [] | _ => [TText (10 :: XmlOutProofs.blanks dd)] end) s2 = Ok s2).
    { destruct (flat_map (slot_nodes M op W) slots); auto. cbn [steps step obind']. unfold addText. destruct RD2 as (T & _). rewrite T. auto. }
    rewrite T2. cbn [obind' steps]. rewrite E3. reflexivity.
  - repeat split; try congruence. rewrite B5, F5, A5. auto.
  - auto.
  - rewrite B9. eapply heq_trans; [apply HH2|]. rewrite A9. rewrite expect_eq. set (objs := slots_objs no_links b slots (S b)).
    match goal with |- heq _ (place b (?o :: objs) ?h) => apply (heq_trans _ (place (b + length [o]) objs (place b [o] h))); [|apply (place_app b [o] objs)] end.
    cbn [length]. replace (b + 1)%nat with (S b) by lia. apply place_heq. eapply heq_trans; [apply fill_heq; apply A11|].
    intros x. unfold fill, put_slot, upd, place. cbn [length]. rewrite !Nat.eqb_refl. replace (Nat.eqb b a) with false by (symmetry; apply Nat.eqb_neq; unfold b; lia).
    destruct (Nat.eqb_spec x b) as [->|NB].
    + replace ((b <=? b)%nat && (b <? b + 1)%nat) with true by lia. rewrite Nat.sub_diag. cbn [nth]. repeat split; auto. cbn [with_slots r_slot]. intros g. apply filled. auto.
    + replace ((b <=? x)%nat && (x <? b + 1)%nat) with false by lia. destruct (Nat.eqb_spec x a) as [->|]; [|apply same_refl]. replace (Nat.eqb a b) with false by (symmetry; apply Nat.eqb_neq; unfold b; lia). apply same_refl.
  - rewrite B10, N2, A9, expect_len, dsize_total. cbn [d_slots]. unfold b. lia.
  - rewrite B11, RF2, A10. rewrite <- app_assoc, <- map_app. f_equal. f_equal. rewrite d_links_eq, A9. reflexivity.
Qed.

(** ** The root element *)
Lemma qsplit_prefixed : forall p l, XmlOutSpec.name p -> ~ In 58 p -> XmlOutSpec.name l -> ~ In 58 l -> qsplit (p ++ 58 :: l) = (p, l).
Proof. intros p l NP CP NL CL. unfold qsplit. rewrite nsname_qualified; auto. Qed.
Lemma space_split : forall p u, In (p, u) (w_spaces W) -> qsplit (fst (space_attribute (p, u))) = match p with [] => ([], lit "xmlns") | _ => (lit "xmlns", p) end.
Proof.
  intros p u I. destruct (sp_prefix _ _ SP p u I) as [->|[NP CP]]; [reflexivity|]. unfold space_attribute. cbn [fst]. destruct p as [|x p]; [destruct NP; congruence|].
  apply (qsplit_prefixed (lit "xmlns") (x :: p)); auto.
  - apply name_by; [discriminate|reflexivity].
  - intros J. vm_compute in J. intuition discriminate.
Qed.
Lemma space_tattr : forall p u, In (p, u) (w_spaces W) -> tattr (space_attr (p, u)) = match p with [] => ([], lit "xmlns", u) | _ => (lit "xmlns", p, u) end.
Proof. intros p u I. unfold tattr, space_attr. rewrite space_split by auto. cbn [snd]. destruct p; reflexivity. Qed.
Lemma root_scope : forall d, valid d -> scope_of [] (map space_attr (w_spaces W) ++ id_attr op (d_id d) ++ flat_map (slot_attrs M W) (d_slots d)) = scope.
Proof.
  intros d VD. unfold scope_of. rewrite map_app. assert (EA : forall l l' e, env_add (l ++ l') e = env_add l' (env_add l e)).
  { clear. induction l as [|[[p n] v] l IH]; intros l' e; cbn [app env_add]; auto. }
  rewrite EA. change (env_add (map split_attr ?l) ?e) with (scope_of e l) at 1. rewrite scope_none.
  - unfold scope. assert (X : forall l e, incl l (w_spaces W) -> env_add (map split_attr (map space_attr l)) e = rev l ++ e).
    { induction l as [|[p u] l IH]; intros e I; cbn [map env_add rev]; auto. unfold space_attr at 1. cbn [split_attr]. rewrite space_split by (apply I; cbn; auto). cbn [snd fst]. rewrite <- app_assoc. cbn [app].
      destruct p as [|x p]; cbn [fst snd].
      - change (str_eqb [] (lit "xmlns")) with false. change (str_eqb [] []) with true. change (str_eqb (lit "xmlns") (lit "xmlns")) with true. cbn [andb]. rewrite IH by (intros y J; apply I; cbn; auto). auto.
      - change (str_eqb (lit "xmlns") (lit "xmlns")) with true. rewrite IH by (intros y J; apply I; cbn; auto). auto. }
    rewrite X by (apply incl_refl). apply app_nil_r.
  - intros a I. destruct (kid_attrs_plain d VD a I) as (n & raw & v & -> & NC & NX). unfold split_attr. rewrite qsplit_plain by auto. cbn [fst snd]. eapply plain_no_declares; eauto.
Qed.
Lemma class_split : forall c, class_ok M W c -> exists l pk, qsplit (w_class W c) = (fst (qsplit (w_class W c)), l) /\ translate scope true (fst (qsplit (w_class W c))) l = space_of W (fst (qsplit (w_class W c))) /\ m_package M (space_of W (fst (qsplit (w_class W c)))) = Some pk /\ m_class M pk l = Some c.
Proof.
  intros c (_ & p & l & pk & Q & IN & NN & AL & MP & MC). assert (QS : qsplit (w_class W c) = (p, l)).
  { destruct Q as (NL & CL & [(-> & -> & _)|(NP & CP & _ & ->)]); [apply qsplit_plain; auto|apply qsplit_prefixed; auto]. }
  rewrite QS. cbn [fst]. exists l, pk. split; auto. split; auto. unfold translate. rewrite scope_get. unfold space_of.
  assert (P1 : p <> lit "xmlns" /\ p <> lit "xml") by (destruct Q as (NL & CL & [(-> & _ & _)|(NP & CP & NX & _)]); split; try discriminate; intros ->; apply NX; cbn; auto).
  rewrite (str_eqb_false p (lit "xmlns")), (str_eqb_false p (lit "xml")) by apply P1. cbn [negb]. rewrite andb_false_r.
  assert (P2 : str_eqb p [] && str_eqb l (lit "xmlns") = false).
  { destruct Q as (NL & CL & [(-> & _ & NX)|(NP & CP & NX & _)]).
    - change (str_eqb [] []) with true. cbn [andb]. apply str_eqb_false. auto.
    - rewrite str_eqb_false; auto. intros ->. destruct NP. congruence. }
  rewrite P2. destruct (find (fun pu => str_eqb p (fst pu)) (w_spaces W)) as [pu|] eqn:F; cbn [option_map]; auto. destruct IN as [->|IN]; auto.
  apply in_map_iff in IN. destruct IN as ([q u] & E & IN). cbn [fst] in E. subst q. apply (find_none _ _ F) in IN. cbn [fst] in IN. rewrite str_eqb_refl in IN. discriminate.
Qed.

Lemma spaces_declared : forall l rest (s : state) sc (P : forall p u, In (p, u) l -> In (p, u) (w_spaces W)), NoDup (map fst l) -> (forall p u, In (p, u) l -> ~ In (to_ns p) (map fst sc)) ->
  XmlNsProofs.RelH (spaces s) [sc] (length sc) -> (forall p u, In (p, u) l -> prefixes s (to_ns p) = None) ->
  exists n m, handlePrefixMapping (map tattr (map space_attr l) ++ rest) s = handlePrefixMapping rest (with_spaces n m s) /\
    XmlNsProofs.RelH n [rev (map (fun pu => (to_ns (fst pu), to_ns (snd pu))) l) ++ sc] (length sc + length l)%nat.
Proof.
  induction l as [|[p u] l IH]; intros rest s sc P ND NI RH NP.
  - exists (spaces s), (prefixes s). cbn [map app rev length]. rewrite Nat.add_0_r. split; auto. destruct s. reflexivity.
  - cbn [map app rev length]. inversion ND as [|? ? NN ND']; subst. cbn [fst] in NN. rewrite space_tattr by (apply P; cbn; auto).
    destruct (XmlNsProofs.declare_new (spaces s) sc [] (to_ns p) (to_ns u) (length sc) RH) as (n1 & E1 & RH1).
    { specialize (NI p u ltac:(cbn; auto)). clear - NI. induction sc as [|[q v] sc IH]; cbn [XmlNsSpec.replace_prefix]; auto. cbn [map fst In] in NI. destruct (XmlNsProofs.str_eqb_spec q (to_ns p)) as [->|N]; [exfalso; apply NI; auto|]. rewrite IH; auto. }
    { unfold XmlNsSpec.live. cbn [concat]. rewrite app_nil_r. auto. }
    assert (ST : XmlNsModel.startPrefixMapping (prefixes s) (to_ns p) (to_ns u) = XmlNsModel.Done (XmlNsModel.smap_set (prefixes s) (to_ns p) (to_ns u))) by (unfold XmlNsModel.startPrefixMapping; rewrite (NP p u) by (cbn; auto); auto).
    set (s1 := with_spaces n1 (XmlNsModel.smap_set (prefixes s) (to_ns p) (to_ns u)) s).
    assert (D1 : handlePrefixMapping ((match p with [] => ([], lit "xmlns", u) | _ => (lit "xmlns", p, u) end) :: (map tattr (map space_attr l) ++ rest)) s = handlePrefixMapping (map tattr (map space_attr l) ++ rest) s1).
    { destruct p as [|x p]; cbn [handlePrefixMapping].
      - change (str_eqb [] (lit "xmlns")) with false. change (str_eqb [] []) with true. change (str_eqb (lit "xmlns") (lit "xmlns")) with true. cbn [andb]. rewrite E1. cbn [of_panic obind' fst]. rewrite ST. reflexivity.
      - change (str_eqb (lit "xmlns") (lit "xmlns")) with true. cbv beta iota. rewrite E1. cbn [of_panic obind' fst]. rewrite ST. reflexivity. }
    rewrite D1.
    assert (CH : forall q v, In (q, v) ((p, u) :: l) -> forall x, In x q -> 0 <= x) by (intros q v I x J; eapply (sp_chars _ _ SP); eauto).
    destruct (IH rest s1 ((to_ns p, to_ns u) :: sc)) as (n2 & m2 & E2 & RH2); auto.
    + intros; apply P; cbn; auto.
    + intros q v I [E|J]; [|eapply NI; cbn; eauto]. cbn [fst] in E. apply to_ns_inj in E; [|eapply CH; cbn; eauto|eapply CH; cbn; eauto]. subst q. apply NN. apply in_map_iff. exists (p, v). auto.
    + intros q v I. cbn. unfold XmlNsModel.smap_set. destruct (XmlNsProofs.str_eqb_spec (to_ns q) (to_ns p)) as [E|N]; [|eapply NP; cbn; eauto]. apply to_ns_inj in E; [|eapply CH; cbn; eauto|eapply CH; cbn; eauto]. subst q. exfalso. apply NN. apply in_map_iff. exists (p, v). auto.
    + exists n2, m2. split; [rewrite E2; reflexivity|]. cbn [fst snd]. rewrite <- app_assoc. cbn [app]. cbn [length] in RH2. replace (length sc + S (length l))%nat with (S (length sc) + length l)%nat by lia. auto.
Qed.

Lemma spaces_skipped : forall l o (s : state), incl l (w_spaces W) -> handleAttributes M op o (map tattr (map space_attr l)) s = Ok s.
Proof.
  induction l as [|[p u] l IH]; intros o s I; cbn [map handleAttributes]; auto. assert (IN : In (p, u) (w_spaces W)) by (apply I; cbn; auto). rewrite space_tattr by auto. destruct (sp_not _ _ SP p u IN) as (N1 & N2 & N3).
  destruct p as [|x p]; cbn [handleAttributes].
  - rewrite (str_eqb_false (lit "xmlns") (op_id op)) by (intros E; apply N2; auto). change (str_eqb (lit "xmlns") (lit "href")) with false. change (str_eqb (lit "xmlns") (lit "xmlns")) with true. cbn [negb andb obind']. apply IH. intros y J. apply I. cbn. auto.
  - rewrite (str_eqb_false (x :: p) (op_id op)), (str_eqb_false (x :: p) (lit "href")) by (auto; intros E; apply N1; rewrite E; cbn; auto). change (str_eqb (lit "xmlns") (lit "xmlns")) with true. cbn [negb]. rewrite andb_false_r. cbn [andb obind']. apply IH. intros y J. apply I. cbn. auto.
Qed.

Definition root_object (d : dobj V) : robj V := mkR (d_class d) (attr_fill (d_slots d) (fun _ => Unset)) None None (if op_manager op then Some (d_id d) else None).
Lemma root_start : forall d, valid d -> exists s, step M op (start_token scope (w_class W (d_class d)) (map space_attr (w_spaces W) ++ id_attr op (d_id d) ++ flat_map (slot_attrs M W) (d_slots d))) (new_reader (V:=V)) = Ok s /\
  rcontents s ++ deferred s = [0%nat] /\ errors s = [] /\ objects s = [Some 0%nat] /\ types s = [TObject] /\ elements s = 1%nat /\ ready 0 s /\ next s = 1%nat /\
  references s = map to_ref (flat_map (slot_links 0) (d_slots d)) /\ same_object (heap s 0%nat) (root_object d) /\ (forall x, x <> 0%nat -> same_object (heap s x) (fresh 0)).
Proof.
  intros d VD. pose proof VD as VD'. destruct VD' as [c id slots CO ND PI H]. cbn [d_class d_id d_slots]. rewrite start_token_eq. destruct (class_split c CO) as (l & pk & Q & TR & MP & MC). rewrite Q. cbn [fst snd]. rewrite TR.
  set (pu := space_of W (fst (qsplit (w_class W c)))) in *. set (al := id_attr op id ++ flat_map (slot_attrs M W) slots). rewrite map_app. set (tl := map tattr al).
  cbn [step]. unfold startElement. set (s0 := with_attributes (map tattr (map space_attr (w_spaces W)) ++ tl) (with_elements 1 (new_reader (V:=V)))). change (elements (new_reader (V:=V))) with 0%nat. fold s0.
  assert (R0 : XmlNsProofs.RelH (spaces s0) [] 0) by (split; [split; [exists []; reflexivity|split; [exists []; reflexivity|split; reflexivity]]|split; reflexivity]).
  destruct (XmlNsProofs.push_rel _ _ _ R0) as (n1 & P1 & R1). rewrite P1. cbn [of_panic obind'].
  destruct (spaces_declared (w_spaces W) tl (with_spaces n1 (prefixes s0) s0) []) as (n2 & m2 & E2 & R2); auto.
  { apply (sp_distinct _ _ SP). }
  rewrite E2. rewrite prefix_mapping_none.
  2:{ intros a I. unfold tl, al in I. apply in_map_iff in I. destruct I as (y & <- & I). destruct (kid_attrs_plain _ VD y I) as (n & raw & v & -> & NC & NX). rewrite tattr_plain by auto. eapply plain_no_declares; eauto. }
  cbn [obind']. unfold processElement. cbn [objects with_spaces with_attributes with_elements s0 new_reader]. rewrite MP, MC.
  unfold createObject, create_plain. destruct CO as [AB CO']. rewrite AB. set (s1 := with_spaces n2 m2 (with_spaces n1 (prefixes s0) s0)).
  change (create c s1) with (0%nat, snd (create c s1)). cbv iota. set (s2 := snd (create c s1)). change (attributes s2) with (map tattr (map space_attr (w_spaces W)) ++ tl).
  rewrite handleAttributes_app, spaces_skipped by (apply incl_refl). cbn [obind']. unfold tl, al.
  destruct (plain_make (DObj c id slots) VD s2 0%nat) as (h & E & HE); [reflexivity|]. cbn [d_id d_slots d_class] in E. rewrite E. cbn [obind'].
  cbn [rev app] in R2. rewrite app_nil_r in R2. cbn [length Nat.add] in R2.
  assert (SPC : spaced 0 n2) by (unfold spaced, ns_pairs; cbn [repeat app]; rewrite map_length; auto).
  pose proof (HE 0%nat) as H0. unfold upd in H0. rewrite Nat.eqb_refl in H0.
  assert (AT : forall s : state, rcontents s = [] -> heap s = h -> attach [0%nat] s = Ok (with_contents [0%nat] s)).
  { intros s E3 E4. unfold attach, is_attached. cbn [existsb]. rewrite E3, E4. destruct H0 as (_ & -> & _). reflexivity. }
  rewrite AT by reflexivity.
  destruct (op_root op); (eexists; split; [reflexivity|]); cbn; do 5 (split; [reflexivity|]).
  - split; [split; [reflexivity|split; [exact SPC|split; [intros x []|exists 0%nat; reflexivity]]]|]. split; [reflexivity|]. split; [reflexivity|]. split; [exact H0|]. intros x NX. eapply same_trans; [apply HE|]. unfold upd. cbn. unfold upd. apply Nat.eqb_neq in NX. rewrite NX. apply same_refl.
  - split; [split; [reflexivity|split; [exact SPC|split; [intros x [<-|[]]; cbn; auto|exists 0%nat; reflexivity]]]|]. split; [reflexivity|]. split; [reflexivity|]. split; [exact H0|]. intros x NX. eapply same_trans; [apply HE|]. unfold upd. cbn. unfold upd. apply Nat.eqb_neq in NX. rewrite NX. apply same_refl.
Qed.

Theorem document_read : forall d, valid d -> exists s,
  (forall ts, steps M op (TOther :: TText [10] :: toks [] 0 (document_tree M op W d) ++ ts) new_reader = steps M op (TEnd :: ts) s) /\
  rcontents s ++ deferred s = [0%nat] /\ errors s = [] /\ objects s = [Some 0%nat] /\ types s = [TObject] /\ elements s = 1%nat /\ ready 0 s /\ next s = dsize d /\ references s = map to_ref (d_links d 0) /\
  heq (heap s) (fun x => nth x (expect M op W no_links d 0 None) (fresh 0)).
Proof.
  intros d VD. destruct (root_start d VD) as (s1 & E1 & A1 & A2 & A3 & A4 & A5 & A6 & A7 & A8 & A9 & A10). pose proof VD as VD'. destruct VD' as [c id slots CO ND PI H]. cbn [d_class d_id d_slots] in *. destruct A9 as (X1 & X2 & X3 & X4 & X5). cbn [root_object r_class r_slot r_parent r_proxy r_id d_class d_slots d_id] in X1, X2, X3, X4, X5.
  pose proof (slots_run slots c 0 0 s1 [] (0 + 1) H ND A6 A3 X1 ltac:(lia)) as R2.
  destruct R2 as (s2 & E2 & (F1 & F2 & F3 & F4 & F5 & F6 & F7) & RD2 & HH2 & N2 & RF2).
  { intros g v I SE. rewrite X5. pose proof (filled 0 slots 0 g ND) as FI. assert (Y : forall slots g0, g0 g = Unset -> (forall v, In (g, v) slots -> is_selected v = true) -> attr_fill slots g0 g = Unset).
    { clear. induction slots as [|[f v] slots IH]; intros g0 G H; cbn [attr_fill fold_left]; auto. apply IH; [|intros; apply H; cbn; auto]. cbn [snd fst]. destruct v; auto. unfold upd. destruct (Nat.eqb_spec g f) as [->|]; auto. specialize (H (DData v) ltac:(cbn; auto)). discriminate. }
    apply Y; auto. intros w J. replace w with v; auto. clear - ND I J. induction slots as [|[f u] slots IH]; [destruct I|]. cbn [map fst] in ND. inversion ND as [|? ? NI ND']; subst. destruct I as [I|I]; destruct J as [J|J]; auto.
    - congruence.
    - exfalso. apply NI. injection I as -> ->. apply in_map_iff. exists (g, w). auto.
    - exfalso. apply NI. injection J as -> ->. apply in_map_iff. exists (g, v). auto. }
  { intros g l x I J. pose proof (H _ _ I) as FK. inversion FK as [| | | | |? ? ? FO' SH' CT' HK]; subst. destruct (HK x J) as (K1 & K2 & K3). eapply kid_item; eauto. }
  exists s2. rewrite A7 in *. split; [|split; [|split; [|split; [|split; [|split; [|split; [|split; [|split]]]]]]]]; try congruence.
  - intros ts. cbn [steps step obind']. change (addText [10] new_reader) with (new_reader (V := V)). unfold document_tree. cbn [d_class]. rewrite element_eq. cbn [toks]. rewrite (root_scope _ VD : scope_of [] (_ ++ id_attr op id ++ flat_map (slot_attrs M W) slots) = scope). rewrite contents_toks.
    cbn [app]. cbn [steps]. rewrite E1. cbn [obind']. rewrite steps_app. rewrite steps_app. rewrite steps_app. unfold lines_toks in E2. rewrite E2. cbn [obind'].
    assert (T2 : steps M op (match flat_map (slot_nodes M op W) slots with [] => [] | _ => [TText (10 :: XmlOutProofs.blanks 0)] end) s2 = Ok s2).
    { destruct (flat_map (slot_nodes M op W) slots); auto. cbn [steps step obind']. unfold addText. destruct RD2 as (T & _). rewrite T. auto. }
    rewrite T2. cbn [obind' steps step]. destruct (endElement M op s2); reflexivity.
  - rewrite N2, dsize_total. cbn [d_slots]. lia.
  - rewrite RF2, A8, <- map_app, d_links_eq. reflexivity.
  - intros x. rewrite expect_eq. eapply same_trans; [apply HH2|]. destruct x as [|x]; cbn [nth].
    + rewrite place_out by lia. unfold fill, upd. rewrite Nat.eqb_refl. repeat split; auto. cbn [with_slots r_slot]. intros g. rewrite (efill_ext _ _ _ _ X5). apply filled. auto.
    + destruct (nth_error (slots_objs no_links 0 slots 1) x) as [o|] eqn:NE.
      * erewrite (nth_error_nth _ _ _ NE). erewrite place_at; [apply same_refl|lia|]. replace (S x - 1)%nat with x by lia. auto.
      * apply nth_error_None in NE. rewrite nth_overflow by auto. rewrite place_out by lia. unfold fill, upd. cbn [Nat.eqb]. apply A10. lia.
Qed.
End Reading.
