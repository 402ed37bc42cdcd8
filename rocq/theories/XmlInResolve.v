(** The end of a document: the references which were left are resolved to the objects which were saved. *)
From Verif Require Import Base Chars StrconvModel FragmentModel FragmentSpec XmlTokenModel XmlInModel XmlInSpec XmlTree XmlInWrite XmlInRead XmlInDocs.
From Verif Require FragmentProofs XmlNsModel XmlNsProofs XmlOutModel.
Open Scope Z_scope.

(** ** Worlds which differ only in what is not containment *)
Record alike (w w' : world) : Prop := {
  al_contents : contents w = contents w';
  al_direct : forall o, direct w o = direct w' o;
  al_container : forall o, container w o = container w' o;
  al_containing : forall o, containing w o = containing w' o;
  al_name : forall f, f_name w f = f_name w' f;
  al_many : forall f, f_many w f = f_many w' f;
  al_plain : forall o, model_element w o = false /\ model_element w' o = false;
  al_id : forall o, object_id w o = object_id w' o;
  al_manager : match manager w, manager w' with
               | None, None => True
               | Some (g, h), Some (g', h') => (forall a, g a = g' a) /\ (forall i, h i = h' i)
               | _, _ => False
               end;
  al_all : all_contents w = all_contents w';
  al_digit : forall c, other_digit w c = other_digit w' c;
  al_get : forall o c f, container w o = Some c -> containing w o = Some f -> get w c f = get w' c f }.

Section Alike.
Context (w w' : world) (A : alike w w').
Lemma within_alike : forall o, within w o -> within w' o.
Proof. intros o H. induction H as [o D|o c C H IH]; [apply in_root; rewrite <- (al_direct _ _ A); auto|apply (in_child _ _ c); auto; rewrite <- (al_container _ _ A); auto]. Qed.
Lemma has_id_alike : forall o, has_id w o -> has_id w' o.
Proof.
  intros o [H|(g & fi & id & M1 & G & N)]; [left; rewrite <- (al_id _ _ A); auto|]. right. pose proof (al_manager _ _ A) as AM. rewrite M1 in AM. destruct (manager w') as [[g' fi']|]; [|destruct AM]. destruct AM as [A1 A2]. exists g', fi', id. rewrite <- A1. auto.
Qed.
Lemma digit_alike : forall c, digit w c = digit w' c.
Proof. intros c. unfold digit. rewrite (al_digit _ _ A). auto. Qed.
Lemma addressable_alike : forall c f o, addressable w c f o -> addressable w' c f o.
Proof.
  intros c f o. unfold addressable. destruct (al_plain _ _ A c) as [-> ->]. unfold fine_name. rewrite (al_name _ _ A), (al_many _ _ A), digit_alike. auto.
Qed.
Lemma path_alike : forall o, addressable_path w o -> addressable_path w' o.
Proof.
  intros o H. induction H as [o D|o c f D C F AD H IH]; [apply ap_root; rewrite <- (al_direct _ _ A); auto|]. apply (ap_child _ _ c f); auto.
  - rewrite <- (al_direct _ _ A); auto.
  - rewrite <- (al_container _ _ A); auto.
  - rewrite <- (al_containing _ _ A); auto.
  - apply addressable_alike. auto.
Qed.
Lemma identified_alike : forall o, identified w o -> identified w' o.
Proof.
  intros o H. unfold identified in *. rewrite <- (al_id _ _ A). pose proof (al_manager _ _ A) as AM. destruct (object_id w o) as [|c i] eqn:E.
  - destruct (manager w) as [[g fi]|]; destruct (manager w') as [[g' fi']|]; try (destruct AM; fail); auto. destruct AM as [A1 A2]. intros id G. rewrite <- A1 in G. rewrite <- A2. auto.
  - destruct H as [H1 H2]. split; auto. destruct (manager w) as [[g fi]|]; destruct (manager w') as [[g' fi']|]; try (destruct AM; fail).
    + destruct AM as [A1 A2]. rewrite <- A2. auto.
    + rewrite <- (al_all _ _ A). destruct H2 as [H2 H3]. split; auto. intros x I EX. rewrite <- (al_id _ _ A) in EX. auto.
Qed.
Lemma id_for_alike : forall o, id_for_object w o = id_for_object w' o.
Proof.
  intros o. unfold id_for_object. pose proof (al_manager _ _ A) as AM. destruct (manager w) as [[g fi]|]; destruct (manager w') as [[g' fi']|]; try (destruct AM; fail); [|apply (al_id _ _ A)]. destruct AM as [A1 A2]. rewrite <- A1. destruct (g o); auto. apply (al_id _ _ A).
Qed.
Lemma segment_alike : forall o c f, container w o = Some c -> containing w o = Some f -> EURIFragmentSegment w c f o = EURIFragmentSegment w' c f o.
Proof.
  intros o c f C F. unfold EURIFragmentSegment. destruct (al_plain _ _ A c) as [-> ->]. unfold plain_segment. rewrite <- (al_name _ _ A), <- (al_many _ _ A), <- (al_get _ _ A o c f) by auto. auto.
Qed.
Lemma climb_alike : forall fuel o x id path, climb w fuel o x id path = climb w' fuel o x id path.
Proof.
  induction fuel as [|fuel IH]; intros o x id path; auto. cbn [climb]. rewrite <- (al_container _ _ A). destruct (container w x) as [c|] eqn:C; auto. rewrite <- id_for_alike, <- (al_containing _ _ A), <- (al_direct _ _ A).
  destruct (id_for_object w o); cbn [rbind].
  - destruct (containing w x) as [f|] eqn:F; cbn [of_option rbind]; auto. rewrite (segment_alike x c f) by auto. destruct (EURIFragmentSegment w' c f x); cbn [rbind]; auto. destruct (direct w c); auto.
  - destruct (direct w c); auto.
Qed.
Lemma fragment_alike : forall fuel o, GetURIFragment w fuel o = GetURIFragment w' fuel o.
Proof.
  intros fuel o. unfold GetURIFragment. rewrite <- (al_id _ _ A), <- (al_direct _ _ A), <- id_for_alike, climb_alike. unfold root_segment. rewrite <- (al_contents _ _ A). auto.
Qed.
End Alike.

Section Resolving.
Context {V : Type} (M : meta V) (op : options) (W : writing) (d : dobj V).
Notation target := (linkable M op W d).
Notation expect := (expect M op W).
Notation valid := (valid M op W target).
Notation state := (reader V).
Notation link := (nat * nat * nat * Z)%type.
Hypothesis VD : valid d.
(** the features of a class have different names, and the resource has less than 2^63 objects *)
Hypothesis NAMES : forall c f g, In f (m_features M c) -> In g (m_features M c) -> m_name M f = m_name M g -> f = g.
Hypothesis SIZE : Z.of_nat (dsize d) < 2 ^ 63.

Definition tree_heap (lv : nat -> nat -> list nat -> rslot V) (x : nat) : robj V := nth x (expect lv d 0 None) (fresh 0).
Definition like (lv : nat -> nat -> list nat -> rslot V) (s : state) : Prop := heq (heap s) (tree_heap lv) /\ rcontents s = [0%nat] /\ next s = dsize d.
Definition no_data (lv : nat -> nat -> list nat -> rslot V) : Prop := forall a f l v, lv a f l <> SData v.

Lemma tree_cases : forall x, (exists k p, occurs d 0 None x k p /\ forall lv, tree_heap lv x = head M op lv k x p) \/ (r_parent (tree_heap no_links x) = None /\ forall lv f, tree_heap lv x = tree_heap no_links x /\ r_slot (tree_heap lv x) f = Unset).
Proof.
  intros x. unfold tree_heap. destruct (nth_error (expect no_links d 0 None) x) as [o|] eqn:E.
  - destruct (nth_occ M op W target _ d 0 None no_links x o (Nat.lt_succ_diag_r _) E) as [(k & p & O & EO)|[(c & u & EO) FA]].
    + left. exists k, p. split; auto. intros lv. apply nth_error_nth. pose proof (proj2 (occ_nth M op W target _ _ _ _ _ _ O) lv) as X. rewrite Nat.sub_0_r in X. auto.
    + right. rewrite (nth_error_nth _ _ _ E). rewrite EO. split; auto. intros lv f. pose proof (FA lv) as X. rewrite (nth_error_nth _ _ _ X), EO. auto.
  - right. apply nth_error_None in E. rewrite (expect_len M op W target) in E. rewrite nth_overflow by (rewrite (expect_len M op W target); auto). split; auto. intros lv f. rewrite nth_overflow by (rewrite (expect_len M op W target); auto). auto.
Qed.
Lemma occ_heap : forall lv x k p, occurs d 0 None x k p -> tree_heap lv x = head M op lv k x p.
Proof. intros lv x k p O. unfold tree_heap. apply nth_error_nth. pose proof (proj2 (occ_nth M op W target _ _ _ _ _ _ O) lv) as X. rewrite Nat.sub_0_r in X. auto. Qed.

Lemma slots_at_fst : forall (slots : list (nat * dval V)) n, map (fun x => fst (fst x)) (slots_at n slots) = map fst slots.
Proof. induction slots as [|[f v] slots IH]; intros n; cbn [slots_at map fst]; auto. rewrite IH. auto. Qed.
Lemma slots_at_in : forall (slots : list (nat * dval V)) n f v, In (f, v) slots -> exists m, In (f, v, m) (slots_at n slots).
Proof. induction slots as [|[g w] slots IH]; intros n f v I; [destruct I|]. cbn [slots_at]. destruct I as [E|I]; [injection E as -> ->; eexists; left; eauto|]. destruct (IH (n + vsize w)%nat f v I) as (m & J). exists m. right. auto. Qed.
Lemma slots_at_of : forall (slots : list (nat * dval V)) n f v m, In (f, v, m) (slots_at n slots) -> In (f, v) slots.
Proof. induction slots as [|[g w] slots IH]; intros n f v m I; [destruct I|]. cbn [slots_at] in I. destruct I as [E|I]; [injection E as -> -> _; left; auto|]. right. eapply IH; eauto. Qed.
Lemma slot_at_in : forall lv a slots n f v m, NoDup (map fst slots) -> In (f, v, m) (slots_at n slots) -> slot_at M lv a (slots_at n slots) f = value_at M lv a f v m.
Proof.
  intros lv a slots n f v m ND I. unfold slot_at. rewrite <- (slots_at_fst slots n) in ND. induction (slots_at n slots) as [|[[g w] q] l IH]; [destruct I|]. cbn [map fst] in ND. inversion ND as [|? ? NI ND']; subst. cbn [find fst]. destruct (Nat.eqb_spec g f) as [->|N].
  - destruct I as [E|I]; [injection E as -> ->; auto|]. exfalso. apply NI. apply in_map_iff. exists (f, v, m). auto.
  - destruct I as [E|I]; [injection E as -> -> ->; congruence|]. auto.
Qed.
Lemma slot_at_cases : forall lv a slots n f, (exists v m, In (f, v, m) (slots_at n slots) /\ slot_at M lv a (slots_at n slots) f = value_at M lv a f v m) \/ (forall lv', slot_at M lv' a (slots_at n slots) f = Unset).
Proof.
  intros lv a slots n f. unfold slot_at. destruct (find (fun x => Nat.eqb (fst (fst x)) f) (slots_at n slots)) as [[[g v] m]|] eqn:F; [|auto]. apply find_some in F. destruct F as [F1 F2]. cbn [fst] in F2. apply Nat.eqb_eq in F2. subst g. left. eauto.
Qed.
Lemma occ_nodup : forall x k p, occurs d 0 None x k p -> NoDup (map fst (d_slots k)) /\ (forall f v, In (f, v) (d_slots k) -> fits M op W target (d_class k) f v).
Proof. intros x k p O. pose proof (occ_valid M op W target _ _ _ _ _ _ O VD) as VK. destruct VK as [c id slots CO ND PI F]. auto. Qed.

(** the holder of an object, in any heap of the tree *)
Lemma parent_holds : forall lv x c f, r_parent (tree_heap lv x) = Some (c, f) -> exists k p l n, occurs d 0 None c k p /\ In (f, DKids l) (d_slots k) /\ In x (kids_at n l) /\ forall lv, r_slot (tree_heap lv c) f = reference M f (kids_at n l).
Proof.
  intros lv x c f H. destruct (tree_cases x) as [(k & p & O & E)|[E1 E2]]; [|destruct (E2 lv f) as [E3 _]; rewrite E3, E1 in H; discriminate].
  rewrite E in H. cbn [head r_parent] in H. subst p. destruct (occ_parent target _ _ _ _ _ _ O) as [(_ & _ & X)|(a & ka & pa & g & l & n & O' & EP & I1 & I2 & I3)]; [discriminate|]. injection EP as -> ->. exists ka, pa, l, n. split; auto. split; auto. split; auto.
  intros lv'. rewrite (occ_heap lv' _ _ _ O'). cbn [head r_slot]. rewrite (slot_at_in _ _ _ _ _ _ _ (proj1 (occ_nodup _ _ _ O')) I2). reflexivity.
Qed.

Lemma is_true_iff : forall a b : bool, (a = true <-> b = true) -> a = b.
Proof. intros [] [] H; intuition congruence. Qed.
Lemma find_ext : forall (A : Type) (p q : A -> bool) l, (forall x, p x = q x) -> find p l = find q l.
Proof. intros A p q l H. induction l as [|x l IH]; cbn [find]; auto. rewrite H, IH. auto. Qed.
Lemma like_object : forall lv s x, like lv s -> r_class (heap s x) = r_class (tree_heap lv x) /\ r_parent (heap s x) = r_parent (tree_heap lv x) /\ r_id (heap s x) = r_id (tree_heap lv x) /\ forall f, r_slot (heap s x) f = r_slot (tree_heap lv x) f.
Proof. intros lv s x [H _]. destruct (H x) as (A1 & A2 & A3 & A4 & A5). auto. Qed.
Lemma tree_same : forall lv lv' x, r_class (tree_heap lv x) = r_class (tree_heap lv' x) /\ r_parent (tree_heap lv x) = r_parent (tree_heap lv' x) /\ r_id (tree_heap lv x) = r_id (tree_heap lv' x) /\ r_proxy (tree_heap lv x) = r_proxy (tree_heap lv' x).
Proof.
  intros lv lv' x. destruct (tree_cases x) as [(k & p & O & E)|[E1 E2]]; [rewrite !E; auto|]. destruct (E2 lv 0%nat) as [-> _]. destruct (E2 lv' 0%nat) as [-> _]. auto.
Qed.
Lemma tree_data : forall lv lv' x f, no_data lv -> no_data lv' -> match r_slot (tree_heap lv x) f with SData v => Some v | _ => None end = match r_slot (tree_heap lv' x) f with SData v => Some v | _ => None end.
Proof.
  intros lv lv' x f N N'. destruct (tree_cases x) as [(k & p & O & E)|[E1 E2]]; [|destruct (E2 lv f) as [_ ->]; destruct (E2 lv' f) as [_ ->]; auto]. rewrite !E. cbn [head r_slot].
  destruct (slot_at_cases lv x (d_slots k) (S x) f) as [(v & m & I & X)|X]; [|rewrite !X; auto]. rewrite X, (slot_at_in lv' _ _ _ _ _ _ (proj1 (occ_nodup _ _ _ O)) I). destruct v as [|v|l|l|l|l]; cbn [value_at]; auto.
  pose proof (N x f l) as N1. pose proof (N' x f l) as N2. destruct (lv x f l), (lv' x f l); auto; exfalso; first [eapply N1; eauto; fail|eapply N2; eauto; fail].
Qed.

Lemma alike_of : forall lv lv' s s', like lv s -> like lv' s' -> no_data lv -> no_data lv' -> alike (world_of M op s) (world_of M op s').
Proof.
  intros lv lv' s s' L L' N N'. assert (OB : forall x, r_class (heap s x) = r_class (heap s' x) /\ r_parent (heap s x) = r_parent (heap s' x) /\ r_id (heap s x) = r_id (heap s' x)).
  { intros x. destruct (like_object _ _ x L) as (-> & -> & -> & _). destruct (like_object _ _ x L') as (-> & -> & -> & _). destruct (tree_same lv lv' x) as (-> & -> & -> & _). auto. }
  pose proof L as (_ & RC & NX). pose proof L' as (_ & RC' & NX').
  assert (AT : forall x, is_attached s x = is_attached s' x) by (intros x; unfold is_attached; destruct (OB x) as (_ & -> & _); rewrite RC, RC'; auto).
  assert (ID : forall x, object_ID M s x = object_ID M s' x).
  { intros x. unfold object_ID. destruct (OB x) as (-> & _). destruct (m_idattr M (r_class (heap s' x))) as [f|]; auto. destruct (like_object _ _ x L) as (_ & _ & _ & SL). destruct (like_object _ _ x L') as (_ & _ & _ & SL'). rewrite SL, SL'. pose proof (tree_data lv lv' x f N N') as TD.
    destruct (r_slot (tree_heap lv x) f), (r_slot (tree_heap lv' x) f); try discriminate; auto. injection TD as ->. auto. }
  constructor; unfold world_of; cbn [contents direct container containing f_name f_many features get model_element object_id manager all_contents other_digit]; auto.
  - congruence.
  - intros o. rewrite RC, RC'. auto.
  - intros o. destruct (OB o) as (_ & -> & _). auto.
  - intros o. destruct (OB o) as (_ & -> & _). auto.
  - destruct (op_manager op); auto. split; [intros a; destruct (OB a) as (_ & _ & ->); auto|]. intros i. rewrite NX, NX'. apply find_ext. intros x. destruct (OB x) as (_ & _ & ->). auto.
  - rewrite NX, NX'. apply filter_ext. auto.
  - intros o c f C F. destruct (like_object _ _ o L) as (_ & PA & _). rewrite PA in C, F. destruct (r_parent (tree_heap lv o)) as [[c' f']|] eqn:P; [|discriminate]. cbn in C, F. injection C as ->. injection F as ->.
    destruct (parent_holds lv o c f P) as (k & p & l & n & O & I & J & SL). destruct (like_object _ _ c L) as (_ & _ & _ & S1). destruct (like_object _ _ c L') as (_ & _ & _ & S2). rewrite S1, S2, !SL. auto.
Qed.

Lemma feature_in : forall c n f, getFeature M c n = Some f -> In f (m_features M c).
Proof.
  intros c n f H. unfold getFeature in H. destruct (find (fun f => str_eqb (m_name M f) n) (rev (m_features M c))) as [g|] eqn:F.
  - injection H as ->. apply find_some in F. apply in_rev. tauto.
  - apply find_some in H. tauto.
Qed.
Lemma occ_size : forall e b p x (k : dobj V) p', occurs e b p x k p' -> (x + dsize k <= b + dsize e)%nat.
Proof.
  intros e b p x k p' H. induction H as [e b p|c id s1 f l1 k l2 s2 b p x k' p' H IH]; [lia|]. rewrite (dsize_total (DObj c id _)). cbn [d_slots]. rewrite total_app. cbn [slots_total fold_right snd vsize]. rewrite ksize_app. cbn [kids_size fold_right]. lia.
Qed.
Lemma consistent_of : forall lv s, like lv s -> consistent (world_of M op s).
Proof.
  intros lv s L. pose proof L as (_ & RC & NX). constructor; unfold world_of; cbn [contents direct container containing f_name f_many features get model_element children].
  - intros o. rewrite RC. cbn [existsb In]. rewrite orb_false_r. rewrite Nat.eqb_eq. split; [intros ->; auto|intros [->|[]]; auto].
  - rewrite RC. reflexivity.
  - intros o c C. destruct (like_object _ _ o L) as (_ & PA & _). rewrite PA in *. destruct (r_parent (tree_heap lv o)) as [[c' f]|] eqn:P; [|discriminate]. cbn [option_map fst snd] in *. injection C as ->. exists f. split; auto.
    destruct (parent_holds lv o c f P) as (k & p & l & n & O & I & J & SL). destruct (like_object _ _ c L) as (CL & _ & _ & SC). pose proof (occ_heap lv _ _ _ O) as HD. destruct (occ_nodup _ _ _ O) as [_ FI]. specialize (FI _ _ I). inversion FI as [| | | | |? ? ? FO SH CT HK]; subst.
    unfold holds. cbn [features f_many get]. rewrite CL, HD. cbn [head r_class]. split; [eapply feature_in; apply (fo_found _ _ _ _ _ FO)|]. rewrite SC, SL. unfold shaped in SH. unfold reference, is_many. destruct (m_kind M f); try (destruct SH; fail).
    + exists (kids_at n l). cbn [refs]. split; auto. split; auto. unfold zlen. rewrite kids_at_length.
      assert (X : (length l <= kids_size l)%nat). { clear - W op. induction l as [|x l IH]; cbn [length kids_size fold_right]; auto. pose proof (dsize_pos (fun _ => True) x). fold (kids_size l). lia. }
      assert (Y : (kids_size l < dsize k)%nat). { rewrite dsize_total. clear - I. induction (d_slots k) as [|[g v] s IH]; [destruct I|]. cbn [slots_total fold_right snd]. fold (slots_total s). destruct I as [E|I]; [injection E as -> ->; cbn [vsize]; lia|]. specialize (IH I). lia. }
      pose proof (occ_size _ _ _ _ _ _ O). lia.
    + destruct l as [|x [|y l]]; try discriminate SH. cbn [kids_at In] in *. destruct J as [->|[]]. auto.
  - intros o f g. apply NAMES.
  - intros o c _ X. discriminate.
Qed.

Lemma document_like : like (exact M) (document M op W d).
Proof. split; [|auto]. intros x. apply same_refl. Qed.
Lemma exact_no_data : no_data (exact (V := V) M).
Proof. intros a f l v. unfold exact, reference. destruct (is_many M f); [discriminate|]. destruct l; discriminate. Qed.

Lemma link_found : forall lv s k, like lv s -> no_data lv -> linkable M op W d k -> lookup M op s (w_frag W k) = Ok (Some k).
Proof.
  intros lv s k L N (LW & LA & LI & n & LF). pose proof (alike_of _ _ _ _ document_like L exact_no_data N) as A. destruct (FragmentProofs.fragment_ok (world_of M op s) k) as (n' & t & F & G).
  - eapply consistent_of; eauto.
  - eapply within_alike; eauto.
  - destruct LA as [H|H]; [left; eapply has_id_alike; eauto|right; eapply path_alike; eauto].
  - eapply identified_alike; eauto.
  - specialize (F (Nat.max n n') (Nat.le_max_r _ _)). rewrite <- (fragment_alike _ _ A), (LF (Nat.max n n') (Nat.le_max_l _ _)) in F. injection F as <-. unfold lookup. rewrite G. auto.
Qed.

(** ** The loop of the references *)
Definition tgt (x : link) : nat := let '(_, _, k, _) := x in k.
Definition lv_of (R : list link) (a f : nat) (l : list nat) : rslot V := match map tgt (filter (is_link a f) R) with [] => Unset | m => reference M f m end.
Lemma lv_no_data : forall R, no_data (lv_of R).
Proof. intros R a f l v. unfold lv_of. destruct (map tgt (filter (is_link a f) R)); [discriminate|]. unfold reference. destruct (is_many M f); discriminate. Qed.
Lemma numbered_split : forall a f l q X k p Y, numbered a f l q = X ++ (a, f, k, p) :: Y -> exists l1 l2, l = l1 ++ k :: l2 /\ map tgt X = l1 /\ p = q + zlen l1.
Proof.
  intros a f. induction l as [|x l IH]; intros q X k p Y E; [destruct X; discriminate|]. cbn [numbered] in E. destruct X as [|y X]; cbn [app] in E.
  - injection E as -> -> _. exists [], l. cbn. split; auto. split; auto. lia.
  - injection E as <- E. destruct (IH _ _ _ _ _ E) as (l1 & l2 & -> & <- & ->). exists (x :: map tgt X), l2. cbn [map tgt app]. split; auto. split; auto. unfold zlen. cbn [length]. lia.
Qed.
Lemma index_none : forall x l, ~ In x l -> index_of x l = -1.
Proof. induction l as [|y l IH]; intros N; cbn [index_of]; auto. destruct (Nat.eqb_spec x y) as [->|]; [exfalso; apply N; cbn; auto|]. rewrite IH; auto. intros I. apply N. cbn. auto. Qed.
Lemma firstn_len : forall (A : Type) (l : list A), firstn (length l) l = l.
Proof. intros. apply firstn_all. Qed.

Lemma reference_step : forall R1 a f k p R2 s, d_links d 0 = R1 ++ (a, f, k, p) :: R2 -> like (lv_of R1) s ->
  lookup M op s (w_frag W k) = Ok (Some k) /\ exists s', setFeatureValue M (Some a) f (FObject k) p s = Ok s' /\ like (lv_of (R1 ++ [(a, f, k, p)])) s' /\
    errors s' = errors s /\ spaces s' = spaces s /\ prefixes s' = prefixes s /\ textBuilder s' = textBuilder s.
Proof.
  intros R1 a f k p R2 s E L. assert (IN : In (a, f, k, p) (d_links d 0)) by (rewrite E; apply in_or_app; right; left; auto).
  destruct (links_occ target _ d 0 None a f k p (Nat.lt_succ_diag_r _) IN) as (kd & pd & l & O & IL & IK). destruct (occ_nodup _ _ _ O) as [ND FI]. pose proof (FI _ _ IL) as F. inversion F as [| | |? ? ? FO SH NC NDl TG| |]; subst.
  pose proof (occ_links M op W target _ _ _ _ _ _ O VD f l IL) as OL. rewrite E, filter_app in OL. cbn [filter is_link] in OL. rewrite !Nat.eqb_refl in OL. cbn [andb] in OL. symmetry in OL. destruct (numbered_split _ _ _ _ _ _ _ _ OL) as (l1 & l2 & EL & ET & EP). cbn [Z.add] in EP.
  assert (NK : ~ In k l1). { rewrite EL in NDl. apply NoDup_remove_2 in NDl. intros I. apply NDl. apply in_or_app. auto. }
  split; [eapply link_found; eauto; [apply lv_no_data|apply TG; auto]|].
  destruct (slots_at_in _ (S a) _ _ IL) as (m & IM). assert (SL : r_slot (heap s a) f = lv_of R1 a f l).
  { destruct (like_object _ _ a L) as (_ & _ & _ & X). rewrite X, (occ_heap _ _ _ _ O). cbn [head r_slot]. rewrite (slot_at_in _ _ _ _ _ _ _ ND IM). auto. }
  assert (SV : setFeatureValue M (Some a) f (FObject k) p s = Ok (set_slot a f (reference M f (l1 ++ [k])) s)).
  { unfold setFeatureValue. unfold contain. rewrite NC. cbn [obind']. rewrite SL. unfold lv_of. rewrite ET. unfold shaped in SH. unfold reference, is_many. destruct (m_kind M f); try (destruct SH; fail).
    - replace (p =? -2) with false by (rewrite EP; unfold zlen; lia). replace (p =? -1) with false by (rewrite EP; unfold zlen; lia). cbn [orb].
      assert (RF : refs (match l1 with [] => Unset | _ => SRefs l1 end : rslot V) = l1) by (destruct l1; auto).
      assert (RF' : refs (match l1 with [] => Unset | n :: l => SRefs (n :: l) end : rslot V) = l1) by (destruct l1; auto).
      destruct (Nat.eqb_spec a k) as [->|NE]; cbn [negb].
      + rewrite RF'. rewrite index_none by auto. cbn [Z.eqb Z.opp Pos.eqb]. replace (p >? zlen l1) with false by lia. do 3 f_equal. f_equal. unfold insert_at. rewrite EP. unfold zlen. rewrite Nat2Z.id, firstn_all, skipn_all. auto.
      + do 3 f_equal. f_equal. rewrite RF'. unfold add_ref. replace (existsb (Nat.eqb k) l1) with false; [rewrite andb_false_r; auto|]. symmetry. destruct (existsb (Nat.eqb k) l1) eqn:EX; auto. apply existsb_exists in EX. destruct EX as (y & I & EY). apply Nat.eqb_eq in EY. subst. contradiction.
    - assert (l1 = []) as ->; [|auto]. rewrite EL in SH. destruct l1 as [|y [|z l1]]; auto; cbn in SH; try discriminate. }
  exists (set_slot a f (reference M f (l1 ++ [k])) s). split; auto. split; [|auto]. destruct L as (HH & RC & NX). split; [|auto].
  intros x. cbn [heap set_slot with_heap]. unfold upd. destruct (Nat.eqb_spec x a) as [->|NE].
  - destruct (HH a) as (A1 & A2 & A3 & A4 & A5). rewrite (occ_heap (lv_of R1) _ _ _ O) in A1, A2, A3, A4, A5. rewrite (occ_heap _ _ _ _ O). split; [auto|]. split; [auto|]. split; [auto|]. split; [auto|]. cbn [r_slot head]. intros g. destruct (Nat.eqb_spec g f) as [->|NG].
    + rewrite (slot_at_in _ _ _ _ _ _ _ ND IM). cbn [value_at]. unfold lv_of. rewrite filter_app, map_app, ET. cbn [filter is_link]. rewrite !Nat.eqb_refl. cbn [andb map tgt]. destruct (l1 ++ [k]) eqn:EQ; auto. destruct l1; discriminate.
    + rewrite A5. cbn [head r_slot]. destruct (slot_at_cases (lv_of R1) a (d_slots kd) (S a) g) as [(v & m' & I & X)|X]; [|rewrite !X; auto]. rewrite X, (slot_at_in _ _ _ _ _ _ _ ND I). destruct v; auto. cbn [value_at]. unfold lv_of. rewrite filter_app. cbn [filter is_link]. apply Nat.eqb_neq in NG. rewrite NG, andb_false_r, app_nil_r. auto.
  - eapply same_trans; [apply HH|]. destruct (tree_cases x) as [(k' & p' & O' & EQ)|[E1 E2]].
    + rewrite !EQ. repeat split; auto. cbn [head r_slot]. intros g. destruct (slot_at_cases (lv_of R1) x (d_slots k') (S x) g) as [(v & m' & I & X)|X]; [|rewrite !X; auto]. rewrite X, (slot_at_in _ _ _ _ _ _ _ (proj1 (occ_nodup _ _ _ O')) I). destruct v; auto. cbn [value_at]. unfold lv_of. rewrite filter_app. cbn [filter is_link]. apply Nat.eqb_neq in NE. rewrite NE. cbn [andb]. rewrite app_nil_r. auto.
    + destruct (E2 (lv_of R1) f) as [-> _]. destruct (E2 (lv_of (R1 ++ [(a, f, k, p)])) f) as [-> _]. apply same_refl.
Qed.

Lemma references_done : forall R2 R1 s, d_links d 0 = R1 ++ R2 -> like (lv_of R1) s -> exists s', handleReferences M op (map (to_ref W) R2) s = Ok s' /\ like (lv_of (R1 ++ R2)) s' /\
  errors s' = errors s /\ spaces s' = spaces s /\ prefixes s' = prefixes s /\ textBuilder s' = textBuilder s.
Proof.
  induction R2 as [|[[[a f] k] p] R2 IH]; intros R1 s E L.
  - exists s. rewrite app_nil_r. split; [reflexivity|]. split; [exact L|auto].
  - destruct (reference_step R1 a f k p R2 s E L) as (LU & s1 & SV & L1 & E1 & E2 & E3 & E4). cbn [map handleReferences to_ref x_id x_object x_feature x_pos]. rewrite LU. cbn [obind']. rewrite SV. cbn [obind'].
    destruct (IH (R1 ++ [(a, f, k, p)]) s1) as (s2 & H2 & L2 & F1 & F2 & F3 & F4); auto; [rewrite <- app_assoc; auto|]. exists s2. rewrite <- app_assoc in L2. split; auto. split; auto. repeat split; congruence.
Qed.

Lemma all_exact : forall x, same_object (tree_heap (lv_of (d_links d 0)) x) (tree_heap (exact M) x).
Proof.
  intros x. destruct (tree_cases x) as [(k & p & O & E)|[E1 E2]].
  - rewrite !E. repeat split; auto. cbn [head r_slot]. intros g. destruct (occ_nodup _ _ _ O) as [ND FI]. destruct (slot_at_cases (exact M) x (d_slots k) (S x) g) as [(v & m' & I & X)|X]; [|rewrite !X; auto]. rewrite X, (slot_at_in _ _ _ _ _ _ _ ND I). destruct v as [|v|l|l|l|l]; auto. cbn [value_at].
    apply slots_at_of in I. unfold lv_of, exact. rewrite (occ_links M op W target _ _ _ _ _ _ O VD g l I). assert (MT : forall l q, map tgt (numbered x g l q) = l) by (clear; induction l as [|y l IH]; intros q; cbn [numbered map tgt]; auto; rewrite IH; auto). rewrite MT.
    pose proof (FI _ _ I) as F. inversion F as [| | |? ? ? FO SH NC NDl TG| |]; subst. destruct l; auto. unfold shaped in SH. destruct (m_kind M g); try (destruct SH; fail); [congruence|discriminate].
  - destruct (E2 (lv_of (d_links d 0)) 0%nat) as [-> _]. destruct (E2 (exact M) 0%nat) as [-> _]. apply same_refl.
Qed.
End Resolving.

Section RoundTrip.
Context {V : Type} (M : meta V) (op : options) (W : writing).
Lemma attach_done : forall s : reader V, rcontents s ++ deferred s = [0%nat] -> r_parent (heap s 0%nat) = None -> attach (deferred s) s = Ok (with_contents [0%nat] s).
Proof using.
  clear. intros s E P. unfold attach, is_attached. destruct (rcontents s) as [|x l] eqn:C; cbn [app] in E.
  - rewrite E. cbn [existsb]. rewrite P. reflexivity.
  - injection E as -> E. apply app_eq_nil in E. destruct E as (-> & ->). reflexivity.
Qed.
Lemma round_trip : forall version encoding d, op_deferred op = true -> id_attribute_ok op -> spaces_ok op W -> valid M op W (linkable M op W d) d ->
  (forall c f g, In f (m_features M c) -> In g (m_features M c) -> m_name M f = m_name M g -> f = g) -> Z.of_nat (dsize d) < 2 ^ 63 ->
  no_question version -> no_question encoding ->
  exists text s, save M op W version encoding d = Some text /\ decode M op text = Ok s /\ holds_document M op W d s.
Proof.
  intros version encoding d DF ID SP VD NAMES SIZE NV NE. set (target := linkable M op W d) in *.
  assert (CN : XmlOutSpec.name (w_class W (d_class d))) by (destruct VD as [c id slots CO ND PI H]; apply (class_name M W target c CO)).
  exists (header version encoding ++ [10] ++ print 0 (document_tree M op W d) ++ [10]).
  destruct (document_read M op W target DF ID SP d VD) as (s & ST & A1 & A2 & A3 & A4 & A5 & A6 & A7 & A8 & A9).
  set (s1 := with_contents [0%nat] (with_text None (with_stacks [] [] (with_elements 0 s)))).
  destruct (references_done M op W d VD NAMES SIZE (d_links d 0) [] s1 eq_refl) as (s2 & H2 & L2 & E1 & E2 & E3 & E4).
  { split; [|split; [reflexivity|exact A7]]. intros x. eapply same_trans; [apply A9|]. unfold tree_heap. apply same_refl. }
  destruct A6 as (T0 & SPC & _ & _). unfold spaced in SPC. cbn [repeat app] in SPC. destruct (XmlNsProofs.pop_rel _ _ _ _ SPC) as (n' & PO & _).
  exists (with_spaces n' (prefixes s2) s2). split; [eapply save_tree; eauto|]. split.
  - unfold decode. rewrite tokens_document; auto; [|eapply document_wf; eauto]. rewrite ST. cbn [steps step]. unfold endElement. cbn [objects types elements textBuilder with_elements with_stacks]. rewrite A3, A4, A5, T0. cbn [obind' tl pred]. cbn [elements with_text with_stacks with_elements].
    rewrite attach_done; [|exact A1|destruct (A9 0%nat) as (_ & P0 & _); cbn [heap with_text with_stacks with_elements]; rewrite P0; destruct d; reflexivity]. cbn [obind' references with_contents with_text with_stacks with_elements]. rewrite A8.
    assert (EQ : with_contents [0%nat] (with_text None (with_stacks [] [] (with_elements 0 s))) = s1) by reflexivity. rewrite EQ, H2. cbn [obind']. rewrite E2. change (spaces s1) with (spaces s). rewrite PO. cbn [of_panic obind' fst]. unfold addText. cbn [textBuilder with_spaces]. rewrite E4. change (textBuilder s1) with (@None str). cbn [obind']. reflexivity.
  - destruct L2 as (HH & RC & NX). split; [exact RC|]. split; [cbn; rewrite E1; exact A2|]. split; [exact NX|]. intros a o NO. cbn [heap with_spaces]. eapply same_trans; [apply HH|]. cbn [app]. eapply same_trans; [apply all_exact; auto|]. unfold tree_heap. erewrite nth_error_nth by eauto. apply same_refl.
Qed.
End RoundTrip.
