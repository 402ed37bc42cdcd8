(** Facts about the tables, decided by computation, and what they say about every class and feature. *)
From Verif Require Import Base ListModel GraphModel GraphSpec EcoreSyntax EcoreTables EcoreModel EcoreSpec.

Definition store_eq (a b : store) : {a = b} + {a <> b}.
Proof. decide equality; [apply Z.eq_dec|apply Nat.eq_dec]. Defined.
Definition add_act_eq (a b : add_act) : {a = b} + {a <> b}.
Proof. decide equality; try apply Z.eq_dec; try apply Nat.eq_dec; apply store_eq. Defined.
Definition remove_act_eq (a b : remove_act) : {a = b} + {a <> b}.
Proof. decide equality; try apply Z.eq_dec; try apply Nat.eq_dec; apply store_eq. Defined.
Definition list_args_eq (a b : list_args) : {a = b} + {a <> b}.
Proof. decide equality; try apply Z.eq_dec; try apply Nat.eq_dec; apply Bool.bool_dec. Defined.
Definition set_act_eq (a b : set_act) : {a = b} + {a <> b}.
Proof. decide equality; try apply Z.eq_dec; try apply Nat.eq_dec; try apply store_eq; apply list_args_eq. Defined.
Definition unset_act_eq (a b : unset_act) : {a = b} + {a <> b}.
Proof. decide equality; try apply Nat.eq_dec; try apply set_act_eq; apply list_args_eq. Defined.
Definition get_act_eq (a b : get_act) : {a = b} + {a <> b}.
Proof. decide equality; try apply Z.eq_dec; try apply Nat.eq_dec; apply list_args_eq. Defined.
Definition lookup_eq {A} (eq : forall a b : A, {a = b} + {a <> b}) (a b : lookup A) : {a = b} + {a <> b}.
Proof. decide equality. Defined.
Definition is {P : Prop} (d : {P} + {~ P}) : bool := if d then true else false.
Lemma is_true P (d : {P} + {~ P}) : is d = true -> P.
Proof. now destruct d. Qed.

(** ** expected tables *)
Definition i_many f := many (ecore_info f).
Definition i_cont f := containment (ecore_info f).
Definition i_opp f := opposite (ecore_info f).
Definition i_id f := featureID (ecore_info f).
Definition i_bidirectional f := match i_opp f with Some _ => true | None => false end.
Definition i_container f := match i_opp f with Some g => i_cont g | None => false end.
(** the identifier given to the other end *)
Definition i_code f := match i_opp f with Some g => i_id g | None => BASE - i_id f end.
Definition i_linked f := i_bidirectional f || i_cont f.
Definition removable f := is_reference f && i_linked f && negb (Nat.eqb f details).

Definition expected_remove f : remove_act :=
  if i_many f then RemoveFrom f
  else if i_container f then RemoveStore (SContainer (i_id f)) else RemoveStore (SSlot f).
Definition expected_add f : add_act :=
  if i_many f then AddTo f
  else if i_container f then AddContainer (SContainer (i_id f)) else AddSingle f (BASE - i_id f) (SSlot f).
Definition expected_set t f : set_act :=
  if i_container f then SetContainer t (i_id f) (i_code f) (SContainer (i_id f))
  else if i_linked f then SetContained t f (i_code f) (i_code f) (SSlot f) else SetField t f.
Definition list_ok f (l : list_args) : bool :=
  Nat.eqb (l_slot l) f && (l_id l =? i_id f)
  && (l_inverseID l =? match i_opp f with Some g => i_id g | None => -1 end)
  && Bool.eqb (l_containment l) (i_cont f) && Bool.eqb (l_inverse l) (i_linked f)
  && Bool.eqb (l_opposite l) (i_bidirectional f).
Definition unset_plain f (a : lookup unset_act) : bool :=
  match a with
  | Found (UnsetField f') => Nat.eqb f' f && negb (i_linked f)
  | Found (UnsetSet a') => is (set_act_eq a' (expected_set cEObject f))
  | _ => false
  end.

Definition features_at (c : nat) : list feature := featuresOf (fst (c_static (class_at c))).

(** ** one check per claim; [c] is a class, [f] one of its features *)
Definition check_id (c f : nat) : bool :=
  (0 <=? i_id f) && match zget (features_at c) (i_id f) with Some f' => Nat.eqb f' f | None => false end
  && (i_id f <? snd (c_static (class_at c))) && (f <? feature_count)%nat.
Definition check_remove (c f : nat) : bool :=
  if removable f then is (lookup_eq remove_act_eq (remove_of c (i_id f)) (Found (expected_remove f))) else true.
Definition check_add (c f : nat) : bool :=
  if i_bidirectional f then
    is (lookup_eq add_act_eq (add_of c (i_id f)) (Found (expected_add f)))
    && (i_many f || i_container f || i_cont f) && is_reference f && negb (Nat.eqb f details)
  else true.
Definition check_changeable (c f : nat) : bool :=
  if is_reference f && changeable f then
    if i_many f then
      match get_of c (i_id f) with
      | Found (GetList l) =>
          list_ok f l && is (lookup_eq set_act_eq (set_of c (i_id f)) (Found (SetList l)))
          && is (lookup_eq unset_act_eq (unset_of c (i_id f)) (Found (UnsetClear l)))
      | _ => false
      end
    else
      match reference_type f with
      | Some t => is (lookup_eq set_act_eq (set_of c (i_id f)) (Found (expected_set t f)))
                  && negb (Nat.eqb t cEObject)
      | None => false
      end && unset_plain f (unset_of c (i_id f))
      && is (lookup_eq get_act_eq (get_of c (i_id f)) (Found (if i_container f then GetContainer (i_id f) else GetSlot f)))
  else true.
Definition check_fixed (c f : nat) : bool :=
  if changeable f then true
  else is (lookup_eq set_act_eq (set_of c (i_id f)) Inherited) && is (lookup_eq unset_act_eq (unset_of c (i_id f)) Inherited).
Definition check_container (c f : nat) : bool :=
  if i_container f then is (lookup_eq get_act_eq (get_of c (i_id f)) (Found (GetContainer (i_id f)))) else true.

Definition all_pairs (n : nat) (fs : nat -> list nat) (P : nat -> nat -> bool) : bool :=
  forallb (fun c => forallb (P c) (fs c)) (seq 0 n).
Lemma all_pairs_spec n fs P c f : all_pairs n fs P = true -> (c < n)%nat -> In f (fs c) -> P c f = true.
Proof.
  unfold all_pairs. intros H Hc Hf. rewrite forallb_forall in H. assert (Hin : In c (seq 0 n)) by (apply in_seq; lia).
  specialize (H c Hin). rewrite forallb_forall in H. exact (H f Hf).
Qed.
Notation everywhere P := (all_pairs class_count features_at P).

Lemma features_ecore classOf o : features (ecore classOf) o = features_at (classOf o).
Proof. reflexivity. Qed.
Lemma class_beyond c : (class_count <= c)%nat -> class_at c = EObject_class.
Proof. intro H. apply nth_overflow. exact H. Qed.
Lemma no_features : featuresOf (fst (c_static EObject_class)) = [].
Proof. vm_compute. reflexivity. Qed.
Lemma features_beyond c : (class_count <= c)%nat -> features_at c = [].
Proof. intro H. unfold features_at. rewrite (class_beyond c H). exact no_features. Qed.

Lemma everywhere_at P c f : everywhere P = true -> In f (features_at c) -> P c f = true.
Proof.
  intros H Hf. destruct (le_lt_dec class_count c) as [Hge|Hlt].
  - rewrite (features_beyond c Hge) in Hf. destruct Hf.
  - exact (all_pairs_spec _ _ _ _ _ H Hlt Hf).
Qed.
Lemma everywhere_spec P : everywhere P = true -> forall classOf o f, In f (features (ecore classOf) o) -> P (classOf o) f = true.
Proof. intros H classOf o f Hf. rewrite features_ecore in Hf. exact (everywhere_at P _ _ H Hf). Qed.

Lemma ids_checked : everywhere check_id = true. Proof. vm_compute. reflexivity. Qed.
Lemma removes_checked : everywhere check_remove = true. Proof. vm_compute. reflexivity. Qed.
Lemma adds_checked : everywhere check_add = true. Proof. vm_compute. reflexivity. Qed.
Lemma changeables_checked : everywhere check_changeable = true. Proof. vm_compute. reflexivity. Qed.
Lemma fixed_checked : everywhere check_fixed = true. Proof. vm_compute. reflexivity. Qed.
Lemma containers_checked : everywhere check_container = true. Proof. vm_compute. reflexivity. Qed.

(** ** checks on single features *)
Definition check_opposite (f : nat) : bool :=
  match i_opp f with
  | Some g => match i_opp g with Some f' => Nat.eqb f' f | None => false end && negb (Nat.eqb g f)
              && (if i_cont f then negb (i_cont g) && negb (i_many g) else true)
  | None => true
  end.
Definition check_type (f : nat) : bool :=
  match i_opp f with
  | Some g =>
      match reference_type f with
      | Some t => negb (Nat.eqb t cEObject)
                  && forallb (fun c => if conforms c t then existsb (Nat.eqb g) (features_at c) else true) (seq 0 class_count)
      | None => false
      end
  | None => true
  end.
Definition all_of (n : nat) (P : nat -> bool) : bool := forallb P (seq 0 n).
Lemma all_of_spec n P f : all_of n P = true -> (f < n)%nat -> P f = true.
Proof. unfold all_of. intros H Hf. rewrite forallb_forall in H. apply H, in_seq. lia. Qed.
Lemma opposites_checked : all_of feature_count check_opposite = true. Proof. vm_compute. reflexivity. Qed.
Lemma types_checked : all_of feature_count check_type = true. Proof. vm_compute. reflexivity. Qed.

Lemma info_beyond f : (feature_count <= f)%nat -> ecore_info f = FI false false None false (-1).
Proof.
  intro H. unfold ecore_info. apply nth_overflow. unfold info_table. rewrite map_length, seq_length. exact H.
Qed.
Lemma opp_below f g : i_opp f = Some g -> (f < feature_count)%nat.
Proof.
  intro H. destruct (le_lt_dec feature_count f) as [Hge|Hlt]; [|exact Hlt].
  unfold i_opp in H. rewrite (info_beyond f Hge) in H. discriminate.
Qed.
Lemma structs_beyond c : (class_count <= c)%nat -> structs c = [].
Proof. intro H. unfold structs. apply nth_overflow. unfold struct_table. rewrite map_length, seq_length. exact H. Qed.

Lemma id_check c f : In f (features_at c) ->
  0 <= i_id f /\ zget (features_at c) (i_id f) = Some f /\ i_id f < snd (c_static (class_at c)).
Proof.
  intro Hf. pose proof (everywhere_at _ _ _ ids_checked Hf) as H. unfold check_id in H.
  apply andb_prop in H as [H _]. apply andb_prop in H as [H H3]. apply andb_prop in H as [H1 H2].
  apply Z.leb_le in H1. apply Z.ltb_lt in H3. split; [exact H1|]. split; [|exact H3].
  destruct (zget (features_at c) (i_id f)) as [f'|]; [|discriminate H2]. apply Nat.eqb_eq in H2. now rewrite H2.
Qed.
Lemma opposite_check f g : i_opp f = Some g ->
  i_opp g = Some f /\ g <> f /\ (i_cont f = true -> i_cont g = false /\ i_many g = false).
Proof.
  intro E. pose proof (all_of_spec _ _ f opposites_checked (opp_below _ _ E)) as H.
  unfold check_opposite in H. rewrite E in H.
  apply andb_prop in H as [H H3]. apply andb_prop in H as [H1 H2].
  destruct (i_opp g) as [f'|]; [|discriminate H1]. apply Nat.eqb_eq in H1. apply negb_true_iff, Nat.eqb_neq in H2.
  split; [now rewrite H1|]. split; [exact H2|]. intro Hc. rewrite Hc in H3. apply andb_prop in H3 as [H3 H4].
  apply negb_true_iff in H3, H4. auto.
Qed.
Lemma conforms_below c t : conforms c t = true -> (c < class_count)%nat.
Proof.
  intro H. destruct (le_lt_dec class_count c) as [Hge|Hlt]; [|exact Hlt].
  unfold conforms in H. rewrite (structs_beyond c Hge) in H. cbn in H. discriminate H.
Qed.
Lemma type_check f g c t : i_opp f = Some g -> reference_type f = Some t ->
  t <> cEObject /\ (conforms c t = true -> In g (features_at c)).
Proof.
  intros E Et. pose proof (all_of_spec _ _ f types_checked (opp_below _ _ E)) as H.
  unfold check_type in H. rewrite E, Et in H. apply andb_prop in H as [H1 H2].
  apply negb_true_iff, Nat.eqb_neq in H1. split; [exact H1|]. intro Hc.
  rewrite forallb_forall in H2. assert (Hin : In c (seq 0 class_count)) by (apply in_seq; pose proof (conforms_below _ _ Hc); lia).
  specialize (H2 c Hin). cbv beta in H2. rewrite Hc in H2. apply existsb_exists in H2 as (g' & Hg & E').
  apply Nat.eqb_eq in E'. now rewrite E'.
Qed.

Lemma wf_ecore classOf : wf_metamodel (ecore classOf).
Proof.
  constructor.
  - intros o f Hf. rewrite features_ecore in Hf. destruct (id_check _ _ Hf) as (H0 & H1 & _). split; [exact H0|exact H1].
  - intros f g E. destruct (opposite_check f g E) as (H1 & H2 & _). split; assumption.
  - intros f g Hc E. destruct (opposite_check f g E) as (_ & _ & H3). exact (H3 Hc).
Qed.

(** ** tables *)
Definition has_case {A} (t : class -> list (Z * A)) (c : nat) (id : Z) : bool :=
  match find_case t (structs c) id with Some _ => true | None => false end.
Lemma has_case_spec A (t : class -> list (Z * A)) c id : has_case t c id = true <-> cases t c id.
Proof. unfold has_case, cases. destruct (find_case t (structs c) id); split; congruence. Qed.
Definition check_cases (c f : nat) : bool :=
  has_case c_get c (i_id f) && has_case c_isSet c (i_id f)
  && Bool.eqb (has_case c_set c (i_id f)) (changeable f) && Bool.eqb (has_case c_unset c (i_id f)) (changeable f).
Lemma cases_checked : everywhere check_cases = true. Proof. vm_compute. reflexivity. Qed.

Fixpoint numbered (i : Z) (l : list feature) : list (string * Z) :=
  match l with [] => [] | f :: l' => (feature_name f, i) :: numbered (i + 1) l' end.
Lemma numbered_in l : forall i name id,
  In (name, id) (numbered i l) <-> exists f, i <= id /\ nth_error l (Z.to_nat (id - i)) = Some f /\ feature_name f = name.
Proof.
  induction l as [|g l IH]; intros i name id; cbn [numbered].
  - split; [intros []|]. intros (f & _ & H & _). destruct (Z.to_nat (id - i)); discriminate.
  - cbn [In]. rewrite IH. split.
    + intros [H|(f & H1 & H2 & H3)].
      * injection H as <- <-. exists g. rewrite Z.sub_diag. split; [lia|]. split; reflexivity.
      * exists f. split; [lia|]. split; [|exact H3]. replace (id - i) with (id - (i + 1) + 1) by lia.
        rewrite Z2Nat.inj_add by lia. rewrite Nat.add_1_r. exact H2.
    + intros (f & H1 & H2 & H3). destruct (Z.eq_dec id i) as [->|Hne].
      * rewrite Z.sub_diag in H2. injection H2 as ->. left. now rewrite H3.
      * right. exists f. split; [lia|]. split; [|exact H3].
        replace (id - i) with (id - (i + 1) + 1) in H2 by lia.
        rewrite Z2Nat.inj_add in H2 by lia. rewrite Nat.add_1_r in H2. exact H2.
Qed.
Definition named_eq (a b : string * Z) : {a = b} + {a <> b}.
Proof. decide equality; [apply Z.eq_dec|apply string_dec]. Defined.
Definition same_elements (a b : list (string * Z)) : bool :=
  forallb (fun x => existsb (fun y => is (named_eq x y)) b) a && forallb (fun x => existsb (fun y => is (named_eq x y)) a) b.
Lemma same_elements_spec a b : same_elements a b = true -> forall x, In x a <-> In x b.
Proof.
  unfold same_elements. intro H. apply andb_prop in H as [H1 H2]. rewrite forallb_forall in H1, H2. intro x.
  split; intro Hx; [specialize (H1 x Hx)|specialize (H2 x Hx)].
  - apply existsb_exists in H1 as (y & Hy & E). apply is_true in E. now rewrite E.
  - apply existsb_exists in H2 as (y & Hy & E). apply is_true in E. now rewrite E.
Qed.
Definition constants_of (c : nat) : list (string * Z) :=
  map (fun p => (snd (fst p), snd p)) (filter (fun p => Nat.eqb (fst (fst p)) c) constants).
Lemma constants_of_in c name id : In (name, id) (constants_of c) <-> In (c, name, id) constants.
Proof.
  unfold constants_of. rewrite in_map_iff. split.
  - intros ([[c' n] i] & E & H). cbn [fst snd] in E. injection E as -> ->. apply filter_In in H as [H E].
    apply Nat.eqb_eq in E. cbn [fst] in E. now rewrite <- E.
  - intro H. exists (c, name, id). split; [reflexivity|]. apply filter_In. split; [exact H|apply Nat.eqb_refl].
Qed.
Definition pair_eq (a b : nat * Z) : {a = b} + {a <> b}.
Proof. decide equality; [apply Z.eq_dec|apply Nat.eq_dec]. Defined.
Definition check_class (c : nat) : bool :=
  is (pair_eq (c_static (class_at c)) (c, zlen (featuresOf c)))
  && existsb (fun y => is (pair_eq (c, zlen (featuresOf c)) y)) feature_counts
  && is (list_eq_dec Nat.eq_dec (supers c) (to_list (c_embeds (class_at c))))
  && same_elements (constants_of c) (numbered 0 (featuresOf c))
  && forallb (fun p => is (Z.eq_dec (i_id (snd p)) (snd (fst p)))) (combine (numbered 0 (featuresOf c)) (featuresOf c)).
Lemma classes_checked : all_of class_count check_class = true. Proof. vm_compute. reflexivity. Qed.

Lemma zget_numbered l name id :
  In (name, id) (numbered 0 l) <-> exists f, zget l id = Some f /\ feature_name f = name.
Proof.
  rewrite numbered_in. unfold zget. split.
  - intros (f & H0 & H1 & H2). exists f. destruct (Z.ltb_spec id 0); [lia|]. rewrite Z.sub_0_r in H1. auto.
  - intros (f & H1 & H2). exists f. destruct (Z.ltb_spec id 0); [discriminate|]. rewrite Z.sub_0_r. auto.
Qed.
Lemma zget_in (A : Type) (l : list A) i x : zget l i = Some x -> In x l.
Proof. unfold zget. destruct (i <? 0); [discriminate|]. apply nth_error_In. Qed.
Lemma combine_numbered l f : forall j, nth_error l j = Some f -> forall i,
  In ((feature_name f, i + Z.of_nat j), f) (combine (numbered i l) l).
Proof.
  induction l as [|g l IH]; intros [|j] H i; try discriminate H; cbn [numbered combine].
  - injection H as ->. left. now rewrite Z.add_0_r.
  - right. replace (i + Z.of_nat (S j)) with (i + 1 + Z.of_nat j) by lia. now apply IH.
Qed.

Lemma class_check c : (c < class_count)%nat -> class_agrees c.
Proof.
  intro Hc. pose proof (all_of_spec _ _ c classes_checked Hc) as H. unfold check_class in H.
  apply andb_prop in H as [H H5]. apply andb_prop in H as [H H4]. apply andb_prop in H as [H H3]. apply andb_prop in H as [H1 H2].
  apply is_true in H1. apply is_true in H3. unfold class_agrees. split; [exact H1|]. split; [|split; [exact H3|split]].
  - apply existsb_exists in H2 as (y & Hy & E). apply is_true in E. now rewrite E.
  - intros name id. rewrite <- zget_numbered, <- constants_of_in. exact (same_elements_spec _ _ H4 (name, id)).
  - intros f id Hf. assert (Hid : i_id f = id).
    { rewrite forallb_forall in H5. unfold zget in Hf. destruct (Z.ltb_spec id 0); [discriminate Hf|].
      specialize (H5 _ (combine_numbered _ _ _ Hf 0)). apply is_true in H5. cbn [fst snd] in H5. rewrite H5. lia. }
    split; [exact Hid|]. apply zget_in in Hf.
    assert (Hin : In f (features_at c)) by (unfold features_at; rewrite H1; exact Hf).
    pose proof (everywhere_at _ _ _ cases_checked Hin) as H. unfold check_cases in H. rewrite Hid in H.
    apply andb_prop in H as [H K4]. apply andb_prop in H as [H K3]. apply andb_prop in H as [K1 K2].
    apply Bool.eqb_prop in K3, K4. rewrite <- !has_case_spec. rewrite K3, K4. tauto.
Qed.

(** ** reads *)
Definition check_get (c f : nat) : bool :=
  if removable f then
    if i_many f then match get_of c (i_id f) with Found (GetList l) => list_ok f l | _ => false end
    else is (lookup_eq get_act_eq (get_of c (i_id f)) (Found (if i_container f then GetContainer (i_id f) else GetSlot f)))
  else true.
Lemma gets_checked : everywhere check_get = true. Proof. vm_compute. reflexivity. Qed.

Definition check_proxies (c f : nat) : bool :=
  match get_of c (i_id f) with
  | Found (GetList l) =>
      Bool.eqb (l_proxies l) (resolveProxies (ecore_info f)
        && negb (existsb (String.eqb (feature_name f)) ["eClassifiers"; "eSubPackages"]%string))
      && list_ok f l
  | _ => true
  end.
Lemma proxies_checked : everywhere check_proxies = true. Proof. vm_compute. reflexivity. Qed.

(** ** attributes *)
Definition zero_of (l : literal) : literal :=
  match l with LBool _ => LBool false | LInt _ => LInt 0 | LStr _ => LStr "" | LNil => LNil end.
Definition type_ok (l : literal) (t : string) : bool :=
  match l with
  | LBool _ => String.eqb t "bool" | LInt _ => String.eqb t "int" | LStr _ => String.eqb t "string"
  | LNil => negb (String.eqb t "bool" || String.eqb t "int" || String.eqb t "string")
  end.
Definition literal_is (a b : literal) : {a = b} + {a <> b}.
Proof. decide equality; [apply Bool.bool_dec|apply Z.eq_dec|apply string_dec]. Defined.
Definition check_attribute (c f : nat) : bool :=
  if plain_attribute f then
    match attr_get_of c (i_id f), attr_set_of c (i_id f), attr_unset_of c (i_id f), attr_isSet_of c (i_id f), initial_value c f with
    | Some (AGField f1), Some (f2, t), Some (f3, l3), Some (AGField f4, l4), Some l5 =>
        Nat.eqb f1 f && Nat.eqb f2 f && Nat.eqb f3 f && Nat.eqb f4 f && is (literal_is l3 l5) && is (literal_is l4 l5)
        && type_ok l5 t && match parse_default (default_text f) (zero_of l5) with Some l => is (literal_is l l5) | None => false end
    | _, _, _, _, _ => false
    end
  else true.
Lemma attributes_checked : everywhere check_attribute = true. Proof. vm_compute. reflexivity. Qed.
Lemma attribute_check c f : In f (features_at c) -> plain_attribute f = true ->
  exists l t, attr_get_of c (i_id f) = Some (AGField f) /\ attr_set_of c (i_id f) = Some (f, t)
    /\ attr_unset_of c (i_id f) = Some (f, l) /\ attr_isSet_of c (i_id f) = Some (AGField f, l)
    /\ initial_value c f = Some l /\ type_ok l t = true /\ parse_default (default_text f) (zero_of l) = Some l.
Proof.
  intros Hf Hp. pose proof (everywhere_at _ _ _ attributes_checked Hf) as H. unfold check_attribute in H. rewrite Hp in H.
  destruct (attr_get_of c (i_id f)) as [[f1|]|]; try discriminate H.
  destruct (attr_set_of c (i_id f)) as [[f2 t]|]; [|discriminate H].
  destruct (attr_unset_of c (i_id f)) as [[f3 l3]|]; [|discriminate H].
  destruct (attr_isSet_of c (i_id f)) as [[[f4|] l4]|]; try discriminate H.
  destruct (initial_value c f) as [l5|]; [|discriminate H].
  apply andb_prop in H as [H H8]. apply andb_prop in H as [H H7]. apply andb_prop in H as [H H6]. apply andb_prop in H as [H H5].
  apply andb_prop in H as [H H4]. apply andb_prop in H as [H H3]. apply andb_prop in H as [H1 H2].
  apply Nat.eqb_eq in H1, H2, H3, H4. apply is_true in H5, H6.
  destruct (parse_default (default_text f) (zero_of l5)) as [l|] eqn:E; [|discriminate H8]. apply is_true in H8.
  exists l5, t. rewrite H1, H2, H3, H4, H5, H6, E, H8. auto 10.
Qed.

Lemma containments_checked : all_of feature_count (fun f => implb (i_cont f) (is_reference f)) = true.
Proof. vm_compute. reflexivity. Qed.
Lemma containment_reference f : i_cont f = true -> is_reference f = true.
Proof.
  intro H. assert (Hlt : (f < feature_count)%nat).
  { destruct (le_lt_dec feature_count f) as [Hge|Hlt]; [|exact Hlt].
    unfold i_cont in H. rewrite (info_beyond f Hge) in H. discriminate H. }
  pose proof (all_of_spec _ _ f containments_checked Hlt) as K. cbv beta in K. now rewrite H in K.
Qed.

(** ** notifications *)
Definition option_Z_eq (a b : option Z) : {a = b} + {a <> b}.
Proof. decide equality. apply Z.eq_dec. Defined.
Definition check_announced (c f : nat) : bool :=
  if changeable f && negb (existsb (String.eqb (feature_name f)) ["instanceTypeName"; "defaultValue"]%string) then
    is (option_Z_eq (set_announces c (i_id f)) (Some (i_id f))) && is (option_Z_eq (unset_announces c (i_id f)) (Some (i_id f)))
  else true.
Lemma announced_checked : everywhere check_announced = true. Proof. vm_compute. reflexivity. Qed.

Lemma feature_at_id c f id : zget (features_at c) id = Some f -> i_id f = id.
Proof.
  intro H. destruct (le_lt_dec class_count c) as [Hge|Hlt].
  - rewrite (features_beyond c Hge) in H. apply zget_in in H. destruct H.
  - destruct (class_check c Hlt) as (Hs & _ & _ & _ & K). unfold features_at in H. rewrite Hs in H. cbn [fst] in H.
    exact (proj1 (K f id H)).
Qed.
Lemma own_id classOf o f id : feature_at (ecore classOf) o id = Some f -> i_id f = id.
Proof. unfold feature_at. rewrite features_ecore. apply feature_at_id. Qed.
