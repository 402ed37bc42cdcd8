(** Objects read from any text are well formed. *)
From Coq Require Import String Permutation.
From Verif Require Import Base Chars StrconvModel FragmentModel XmlTokenModel XmlInModel XmlInHeapSpec.
From Verif Require XmlNsModel FragmentProofs.
Open Scope Z_scope.

Section Heap.
Context {V : Type} (M : meta V) (op : options).
Notation state := (reader V).
Notation wf := (well_formed M).

(** ** The fields which matter *)
Definition same_heap (s s' : state) : Prop := heap s' = heap s /\ next s' = next s /\ rcontents s' = rcontents s.
Lemma wf_same : forall s s', same_heap s s' -> wf s -> wf s'.
Proof. intros s s' (H & N & C) [A B D E F G]. constructor; rewrite ?H, ?N, ?C in *; auto. Qed.

Definition ok (s : state) : Prop :=
  wf s /\ (forall a, In (Some a) (objects s) -> (a < next s)%nat) /\ (forall r, In r (references s) -> (x_object r < next s)%nat) /\
  NoDup (deferred s) /\ (forall a, In a (deferred s) -> (a < next s)%nat).
(** what the steps below an element keep *)
Definition later (s s' : state) : Prop := (next s <= next s')%nat /\ deferred s' = deferred s.
Lemma later_refl : forall s, later s s.
Proof. split; auto. Qed.
Lemma later_trans : forall a b c, later a b -> later b c -> later a c.
Proof. intros a b c (A & B) (C & D). split; [lia|congruence]. Qed.

Ltac gone := let H := fresh in intros H; cbn [targets In] in H; try tauto.

(** ** Objects *)
Lemma create_wf : forall c (s : state), wf s -> wf (snd (create c s)).
Proof.
  intros c s [A B D E F [G G']]. unfold create. cbn [snd].
  assert (N : forall f, targets (r_slot (heap s (next s)) f) = []).
  { intros f. destruct (targets (r_slot (heap s (next s)) f)) as [|x l] eqn:T; auto. destruct (E (next s) f x); [rewrite T; cbn; auto|lia]. }
  assert (P : r_parent (heap s (next s)) = None).
  { destruct (r_parent (heap s (next s))) as [[a f]|] eqn:T; auto. destruct (B _ _ _ T) as [_ I]. apply E in I. lia. }
  assert (SL : forall a f, targets (r_slot (upd (heap s) (next s) (fresh c) a) f) = targets (r_slot (heap s a) f)).
  { intros a f. unfold upd. destruct (Nat.eqb_spec a (next s)) as [->|]; auto. }
  assert (PA : forall x, r_parent (upd (heap s) (next s) (fresh c) x) = r_parent (heap s x)).
  { intros x. unfold upd. destruct (Nat.eqb_spec x (next s)) as [->|]; auto. }
  constructor; cbn [heap next rcontents].
  - intros a f x. rewrite SL, PA. auto.
  - intros x a f. rewrite SL, PA. auto.
  - intros a f. rewrite SL. auto.
  - intros a f x. rewrite SL. intros I. apply E in I. lia.
  - intros a f. unfold upd. destruct (Nat.eqb_spec a (next s)); auto. cbn. auto.
  - split; auto. intros x I. rewrite PA. destruct (G' x I). split; auto.
Qed.
(** an update of an object which keeps its slots and its container *)
Lemma keep_wf : forall a o (s : state), wf s -> (forall f, r_slot o f = r_slot (heap s a) f) -> r_parent o = r_parent (heap s a) -> wf (with_heap (upd (heap s) a o) s).
Proof.
  intros a o s [A B D E F [G G']] S1 P1.
  assert (SL : forall b f, r_slot (upd (heap s) a o b) f = r_slot (heap s b) f) by (intros b f; unfold upd; destruct (Nat.eqb_spec b a) as [->|]; auto).
  assert (PA : forall b, r_parent (upd (heap s) a o b) = r_parent (heap s b)) by (intros b; unfold upd; destruct (Nat.eqb_spec b a) as [->|]; auto).
  constructor; cbn [heap next rcontents with_heap]; try (intros *; rewrite ?SL, ?PA; eauto; fail).
  split; auto. intros x I. rewrite PA. auto.
Qed.
Lemma set_slot_heap : forall a f v (s : state) b g, r_slot (heap (set_slot a f v s) b) g = if Nat.eqb b a && Nat.eqb g f then v else r_slot (heap s b) g.
Proof. intros. unfold set_slot. cbn [heap with_heap]. unfold upd. destruct (Nat.eqb_spec b a) as [->|]; cbn [andb r_slot]; auto. Qed.
Lemma set_slot_parent : forall a f v (s : state) b, r_parent (heap (set_slot a f v s) b) = r_parent (heap s b).
Proof. intros. unfold set_slot. cbn [heap with_heap]. unfold upd. destruct (Nat.eqb_spec b a) as [->|]; auto. Qed.
Lemma set_parent_heap : forall a p (s : state) b g, r_slot (heap (set_parent a p s) b) g = r_slot (heap s b) g.
Proof. intros. unfold set_parent. cbn [heap with_heap]. unfold upd. destruct (Nat.eqb_spec b a) as [->|]; auto. Qed.
Lemma set_parent_parent : forall a p (s : state) b, r_parent (heap (set_parent a p s) b) = if Nat.eqb b a then p else r_parent (heap s b).
Proof. intros. unfold set_parent. cbn [heap with_heap]. unfold upd. destruct (Nat.eqb_spec b a) as [->|]; auto. Qed.

(** a feature which contains nothing, before and after *)
Lemma slot_wf : forall a f v (s : state), wf s -> (m_contain M f = true -> targets (r_slot (heap s a) f) = [] /\ targets v = []) -> shape M f v ->
  (forall x, In x (targets v) -> (a < next s)%nat /\ (x < next s)%nat) -> (m_unique M f = true -> NoDup (targets v)) -> wf (set_slot a f v s).
Proof.
  intros a f v s [A B D E F [G G']] K SH R U. constructor; intros *; rewrite ?set_slot_heap, ?set_slot_parent; cbn [next rcontents set_slot with_heap].
  - destruct (Nat.eqb_spec a0 a) as [->|]; cbn [andb]; [destruct (Nat.eqb_spec f0 f) as [->|]|]; auto. intros C. destruct (K C) as [_ ->]. intros [].
  - intros P. destruct (B _ _ _ P) as [C I]. split; auto. destruct (Nat.eqb_spec a0 a) as [->|]; cbn [andb]; [destruct (Nat.eqb_spec f0 f) as [->|]|]; auto. destruct (K C) as [X _]. rewrite X in I. destruct I.
  - destruct (Nat.eqb_spec a0 a) as [->|]; cbn [andb]; [destruct (Nat.eqb_spec f0 f) as [->|]|]; auto. intros [C|C]; auto. destruct (K C) as [_ ->]. constructor.
  - destruct (Nat.eqb_spec a0 a) as [->|]; cbn [andb]; [destruct (Nat.eqb_spec f0 f) as [->|]|]; eauto.
  - destruct (Nat.eqb_spec a0 a) as [->|]; cbn [andb]; [destruct (Nat.eqb_spec f0 f) as [->|]|]; auto.
  - split; auto. intros x I. rewrite set_slot_parent. auto.
Qed.
(** an object comes into a containment feature *)
Lemma contain_wf : forall a f v x (s : state), wf s -> m_contain M f = true -> is_attached s x = false -> (a < next s)%nat -> (x < next s)%nat -> shape M f v ->
  targets v = targets (r_slot (heap s a) f) ++ [x] -> wf (set_slot a f v (set_parent x (Some (a, f)) s)).
Proof.
  intros a f v x s [A B D E F [G G']] C AT NA NX SH T. unfold is_attached in AT. apply Bool.orb_false_iff in AT. destruct AT as [A1 A2].
  assert (NC : ~ In x (rcontents s)). { intros I. assert (existsb (Nat.eqb x) (rcontents s) = true) by (apply existsb_exists; exists x; split; auto; apply Nat.eqb_refl). congruence. }
  assert (NP : r_parent (heap s x) = None) by (destruct (r_parent (heap s x)); [discriminate|auto]).
  assert (NI : forall b g, m_contain M g = true -> ~ In x (targets (r_slot (heap s b) g))). { intros b g CG I. rewrite (A _ _ _ CG I) in NP. discriminate. }
  constructor; intros *; rewrite ?set_slot_heap, ?set_slot_parent, ?set_parent_heap, ?set_parent_parent; cbn [next rcontents set_slot with_heap set_parent].
  - intros CG I. destruct (Nat.eqb_spec x0 x) as [->|NE].
    + destruct (Nat.eqb_spec a0 a) as [->|]; cbn [andb] in I; [destruct (Nat.eqb_spec f0 f) as [->|]|]; auto; exfalso; eapply NI; eauto.
    + apply A; auto. destruct (Nat.eqb_spec a0 a) as [->|]; cbn [andb] in I; [destruct (Nat.eqb_spec f0 f) as [->|]|]; auto. rewrite T in I. apply in_app_or in I. destruct I as [I|[I|[]]]; auto. congruence.
  - destruct (Nat.eqb_spec x0 x) as [->|NE].
    + intros P. injection P as <- <-. split; auto. rewrite !Nat.eqb_refl. cbn [andb]. rewrite T. apply in_or_app. cbn. auto.
    + intros P. destruct (B _ _ _ P) as [CG I]. split; auto. destruct (Nat.eqb_spec a0 a) as [->|]; cbn [andb]; [destruct (Nat.eqb_spec f0 f) as [->|]|]; auto. rewrite T. apply in_or_app. auto.
  - destruct (Nat.eqb_spec a0 a) as [->|]; cbn [andb]; [destruct (Nat.eqb_spec f0 f) as [->|]|]; auto. intros _. rewrite T.
    eapply Permutation_NoDup; [apply Permutation_cons_append|]. constructor; auto.
  - destruct (Nat.eqb_spec a0 a) as [->|]; cbn [andb]; [destruct (Nat.eqb_spec f0 f) as [->|]|]; eauto. rewrite T. intros I. apply in_app_or in I. destruct I as [I|[<-|[]]]; eauto.
  - destruct (Nat.eqb_spec a0 a) as [->|]; cbn [andb]; [destruct (Nat.eqb_spec f0 f) as [->|]|]; auto.
  - split; auto. intros y I. rewrite set_slot_parent, set_parent_parent. destruct (Nat.eqb_spec y x) as [->|]; [contradiction|auto].
Qed.
Lemma attach_wf : forall l (s s' : state), wf s -> NoDup l -> (forall x, In x l -> (x < next s)%nat) -> attach l s = Ok s' -> wf s' /\ s' = with_contents (rcontents s ++ l) s.
Proof.
  intros l s s' [A B D E F [G G']] ND R. unfold attach. destruct (existsb (is_attached s) l) eqn:AT; [discriminate|]. intros X. injection X as <-. split; auto.
  assert (N : forall x, In x l -> ~ In x (rcontents s) /\ r_parent (heap s x) = None).
  { intros x I. assert (Y : is_attached s x = false). { destruct (is_attached s x) eqn:Y; auto. assert (existsb (is_attached s) l = true) by (apply existsb_exists; eauto). congruence. }
    unfold is_attached in Y. apply Bool.orb_false_iff in Y. destruct Y as [Y1 Y2]. split.
    - intros J. assert (existsb (Nat.eqb x) (rcontents s) = true) by (apply existsb_exists; exists x; split; auto; apply Nat.eqb_refl). congruence.
    - destruct (r_parent (heap s x)); [discriminate|auto]. }
  constructor; cbn [heap next rcontents with_contents]; auto. split.
  - clear - G ND N. induction (rcontents s) as [|y c IH]; cbn [app]; auto. inversion G as [|? ? NI G']; subst. constructor.
    + intros I. apply in_app_or in I. destruct I as [I|I]; auto. apply (N y I). cbn. auto.
    + apply IH; auto. intros x I. destruct (N x I). split; auto. intros J. apply H. cbn. auto.
  - intros x I. apply in_app_or in I. destruct I as [I|I]; auto. split; auto. apply N; auto.
Qed.

(** ** References are to objects which exist *)
Lemma rbind_done : forall {A B} (e : res A) (f : A -> res B) y, rbind e f = FragmentModel.Done y -> exists x, e = FragmentModel.Done x /\ f x = FragmentModel.Done y.
Proof. intros A B [x| |] f y H; try discriminate. eauto. Qed.
Lemma done_inj : forall {A} (x y : A), FragmentModel.Done x = FragmentModel.Done y -> x = y.
Proof. intros A x y H. injection H. auto. Qed.
Lemma obind_ok : forall {A B} (e : outcome A) (f : A -> outcome B) y, obind' e f = Ok y -> exists x, e = Ok x /\ f x = Ok y.
Proof. intros A B [x| | |] f y H; try discriminate. eauto. Qed.
Lemma find_in : forall {A} (p : A -> bool) l x, find p l = Some x -> In x l.
Proof. intros. apply find_some in H. tauto. Qed.
Lemma by_id_range : forall s id x, object_by_id (world_of M op s) id = Some x -> (x < next s)%nat.
Proof.
  intros s id x. unfold object_by_id, world_of. cbn [manager all_contents]. destruct (op_manager op); intros H; apply find_in in H.
  - apply in_seq in H. lia.
  - apply filter_In in H. destruct H as [H _]. apply in_seq in H. lia.
Qed.
Lemma segment_range : forall s o t x, wf s -> plain_for_segment (world_of M op s) o t = FragmentModel.Done (Some x) -> (x < next s)%nat.
Proof.
  intros s o t x W. assert (R := wf_range _ _ W).
  assert (G1 : forall f y, get (world_of M op s) o f = VSingle (Some y) -> (y < next s)%nat).
  { intros f y. cbn. destruct (m_kind M f); try discriminate. intros E. destruct (r_slot (heap s o) f) eqn:Z; try discriminate. injection E as ->. apply (R o f). rewrite Z. cbn. auto. }
  assert (G2 : forall f l y, get (world_of M op s) o f = VMany l -> In y l -> (y < next s)%nat).
  { intros f l y. cbn. destruct (m_kind M f); try discriminate. intros E. injection E as <-. intros I. apply (R o f). destruct (r_slot (heap s o) f); cbn in *; tauto. }
  unfold plain_for_segment. destruct t as [|c t]; [discriminate|]. destruct (Z.eq_dec c 64) as [->|NE].
  2:{ intros H. exfalso. revert H. clear - NE. destruct c as [|c|c]; try discriminate. do 7 (try (destruct c as [c|c|]; try discriminate)); congruence. }
  destruct ((if digit (world_of M op s) (last (64 :: t) 0) then last_index 46 (64 :: t) else -1) =? -1); intros H.
  - apply rbind_done in H. destruct H as (n & _ & H). apply rbind_done in H. destruct H as (f & _ & H). assert (H' : match get (world_of M op s) o f with VSingle y => y | _ => None end = Some x) by (injection H; auto). destruct (get (world_of M op s) o f) eqn:E; try discriminate. subst. eauto.
  - apply rbind_done in H. destruct H as (d & _ & H). apply rbind_done in H. destruct H as (n & _ & H). apply rbind_done in H. destruct H as (f & _ & H).
    destruct (get (world_of M op s) o f) as [|l|] eqn:E; try discriminate. destruct (fst (atoi d) <? zlen l); [|discriminate]. apply rbind_done in H. destruct H as (y & H & H'). injection H' as ->. eapply G2; eauto.
    unfold of_option in H. destruct (zget l (fst (atoi d))) as [z|] eqn:Z; [|discriminate]. injection H as ->. unfold zget in Z. destruct (_ <? 0) in Z; [discriminate|]. eapply nth_error_In; eauto.
Qed.
Lemma follow_range : forall s, wf s -> forall path x y, (forall z, x = Some z -> (z < next s)%nat) -> follow (world_of M op s) x path = FragmentModel.Done (Some y) -> (y < next s)%nat.
Proof.
  intros s W path. induction path as [|t path IH]; intros x y X H.
  - destruct x as [x|]; [|discriminate]. injection H as ->. auto.
  - destruct x as [x|]; [|discriminate]. cbn [follow] in H. apply rbind_done in H. destruct H as (x' & H & H'). eapply IH; [|exact H']. intros z ->. unfold EObjectForFragmentSegment in H. cbn [model_element world_of] in H. eapply segment_range; eauto.
Qed.
Lemma lookup_range : forall s id x, wf s -> lookup M op s id = Ok (Some x) -> (x < next s)%nat.
Proof.
  intros s id x W. unfold lookup. destruct (GetEObject (world_of M op s) id) as [r| |] eqn:G; try discriminate. intros H. injection H as ->.
  assert (BI : forall i z, FragmentModel.Done (object_by_id (world_of M op s) i) = FragmentModel.Done (Some z) -> (z < next s)%nat) by (intros i z E; apply done_inj in E; eapply by_id_range; eauto).
  assert (RT : forall t z, object_for_root_segment (world_of M op s) t = Some z -> (z < next s)%nat).
  { intros t z E. unfold object_for_root_segment in E. destruct (wf_roots _ _ W) as [_ R].
    assert (N : forall p, (if (0 <=? p) && (p <? zlen (contents (world_of M op s))) then nth_error (contents (world_of M op s)) (Z.to_nat p) else None) = Some z -> (z < next s)%nat).
    { intros p. destruct ((0 <=? p) && (p <? zlen (contents (world_of M op s)))); intros I; [|discriminate]. apply nth_error_In in I. apply R. exact I. }
    destruct t as [|c t]; [apply (N 0); exact E|]. destruct (Z.eq_dec c 63) as [->|NE]; [eapply by_id_range; eauto|]. apply (N (fst (atoi (c :: t)))).
    rewrite <- E. clear - NE. destruct c as [|c|c]; auto. do 6 (destruct c as [c|c|]; auto); congruence. }
  unfold GetEObject in G. destruct id as [|c t]; [eapply BI; eauto|]. destruct (Z.eq_dec c 47) as [->|NE].
  - unfold object_by_path in G. destruct (tl (split 47 (47 :: t))) as [|r path]; [apply done_inj in G; eapply RT; eauto|]. eapply follow_range; eauto.
  - assert (G' : (if last (c :: t) 0 =? 63 then
          let! p := of_option (zslice (c :: t) 0 (zlen (c :: t) - 2)) in
          let index := last_index 63 p in
          if index =? -1 then FragmentModel.Done (object_by_id (world_of M op s) (c :: t))
          else let! id := of_option (zslice (c :: t) 0 index) in FragmentModel.Done (object_by_id (world_of M op s) id)
        else FragmentModel.Done (object_by_id (world_of M op s) (c :: t))) = FragmentModel.Done (Some x)).
    { rewrite <- G. clear - NE. destruct c as [|c|c]; auto. do 6 (destruct c as [c|c|]; auto); congruence. }
    destruct (last (c :: t) 0 =? 63); [|eapply BI; eauto]. apply rbind_done in G'. destruct G' as (p & _ & G'). cbv zeta in G'. destruct (_ =? -1) in G'; [eapply BI; eauto|]. apply rbind_done in G'. destruct G' as (i & _ & G'). eapply BI; eauto.
Qed.

(** ** Values *)
Lemma no_targets : forall s a f, wf s -> (m_kind M f = Single \/ m_kind M f = Many) -> targets (r_slot (heap s a) f) = [].
Proof. intros s a f W K. pose proof (wf_shape _ _ W a f) as S1. destruct (r_slot (heap s a) f); cbn in *; auto; destruct K; congruence. Qed.
Lemma targets_refs : forall s a f, wf s -> m_kind M f = ManyAdd -> targets (r_slot (heap s a) f) = refs (r_slot (heap s a) f).
Proof. intros s a f W K. pose proof (wf_shape _ _ W a f) as S1. destruct (r_slot (heap s a) f); cbn in *; auto; congruence. Qed.
Lemma index_of_none : forall x l, index_of x l = -1 -> ~ In x l.
Proof. intros x l H I. apply FragmentProofs.index_of_spec in I. lia. Qed.
Lemma insert_perm : forall {A} (l : list A) i x, Permutation (insert_at l i x) (x :: l).
Proof. intros A l i x. unfold insert_at. cbn [app]. rewrite <- (firstn_skipn i l) at 3. symmetry. apply Permutation_middle. Qed.
Lemma removed_perm : forall {A} (l : list A) n y, nth_error l n = Some y -> Permutation (y :: firstn n l ++ skipn (S n) l) l.
Proof.
  intros A l n. revert l. induction n as [|n IH]; intros [|x l] y H; try discriminate.
  - injection H as ->. reflexivity.
  - cbn [firstn skipn app]. rewrite perm_swap. constructor. apply IH. auto.
Qed.
Lemma add_ref_in : forall f l x y, In y (add_ref M f l x) -> In y l \/ y = x.
Proof. intros f l x y. unfold add_ref. destruct (_ && _); auto. intros I. apply in_app_or in I. destruct I as [I|[I|[]]]; auto. Qed.
Lemma add_ref_once : forall f l x, m_unique M f = true -> NoDup l -> NoDup (add_ref M f l x).
Proof.
  intros f l x U N. unfold add_ref. rewrite U. cbn [andb]. destruct (existsb (Nat.eqb x) l) eqn:E; auto. eapply Permutation_NoDup; [apply Permutation_cons_append|]. constructor; auto.
  intros I. assert (existsb (Nat.eqb x) l = true) by (apply existsb_exists; exists x; split; auto; apply Nat.eqb_refl). congruence.
Qed.

Lemma set_slot_with : forall a f v (s : state), exists h, set_slot a f v s = with_heap h s.
Proof. intros. unfold set_slot. eauto. Qed.
Lemma set_twice : forall a f v x p (s : state), exists h, set_slot a f v (set_parent x p s) = with_heap h s.
Proof. intros. unfold set_slot, set_parent. cbn [with_heap]. eexists. reflexivity. Qed.

(** the object to be added, into a reference which contains it or not *)
Lemma put_ok : forall a f x v s s', wf s -> (a < next s)%nat -> (x < next s)%nat -> contain M a f x s = Ok s' ->
  shape M f v -> (m_contain M f = true -> ~ In x (targets (r_slot (heap s a) f)) -> targets v = targets (r_slot (heap s a) f) ++ [x]) ->
  (forall y, In y (targets v) -> In y (targets (r_slot (heap s a) f)) \/ y = x) ->
  (m_unique M f = true -> NoDup (targets v)) -> wf (set_slot a f v s') /\ exists h, set_slot a f v s' = with_heap h s.
Proof.
  intros a f x v s s' W NA NX C SH T1 T2 U. unfold contain in C. destruct (m_contain M f) eqn:CT.
  - destruct (is_attached s x) eqn:AT; [discriminate|]. injection C as <-. split; [|apply set_twice]. apply contain_wf; auto. apply T1; auto.
    intros I. apply (wf_down _ _ W) in I; auto. unfold is_attached in AT. rewrite I, Bool.orb_true_r in AT. discriminate.
  - injection C as <-. split; [|apply set_slot_with]. apply slot_wf; auto.
    + congruence.
    + intros y I. split; auto. destruct (T2 y I) as [J| ->]; auto. apply (wf_range _ _ W) in J. tauto.
Qed.
Lemma setFeature_ok : forall a f v pos s s', wf s -> (a < next s)%nat -> (forall x, v = FObject x -> (x < next s)%nat) -> setFeatureValue M (Some a) f v pos s = Ok s' ->
  wf s' /\ exists h, s' = with_heap h s.
Proof.
  intros a f v pos s s' W NA NX H. unfold setFeatureValue in H. destruct (m_kind M f) eqn:K.
  - destruct v; try discriminate. injection H as <-. split; [|apply set_slot_with]. apply slot_wf; auto; [intros _; split; [apply no_targets; auto|reflexivity]|intros x []|intros; constructor].
  - destruct (pos =? -2). { injection H as <-. split; auto. exists (heap s). destruct s; reflexivity. }
    destruct v; try discriminate. injection H as <-. split; [|apply set_slot_with]. apply slot_wf; auto; [intros _; split; [apply no_targets; auto|reflexivity]|intros x []|intros; constructor].
  - pose proof (targets_refs s a f W K) as TR. assert (RG : forall y, In y (refs (r_slot (heap s a) f)) -> (y < next s)%nat) by (intros y I; rewrite <- TR in I; apply (wf_range _ _ W) in I; tauto).
    destruct (pos =? -2).
    { destruct (m_contain M f) eqn:CT; [discriminate|]. injection H as <-. split; [|apply set_slot_with]. apply slot_wf; auto; [congruence|intros x []|intros; constructor]. }
    destruct v as [|x|]; try discriminate. specialize (NX x eq_refl). destruct ((pos =? -1) || negb (Nat.eqb a x)).
    + apply obind_ok in H. destruct H as (s1 & C & H). injection H as <-. eapply put_ok; eauto; cbn [targets].
      * intros CT NI. rewrite TR in *. unfold add_ref. replace (existsb (Nat.eqb x) (refs (r_slot (heap s a) f))) with false; [rewrite Bool.andb_false_r; auto|].
        symmetry. apply Bool.not_true_is_false. intros E. apply existsb_exists in E. destruct E as (y & I & E). apply Nat.eqb_eq in E. subst y. auto.
      * intros y I. rewrite TR. eapply add_ref_in; eauto.
      * intros U. apply add_ref_once; auto. rewrite <- TR. apply (wf_once _ _ W). auto.
    + destruct (m_contain M f) eqn:CT; [discriminate|]. destruct (index_of x (refs (r_slot (heap s a) f)) =? -1) eqn:IX.
      * destruct (_ >? _); [discriminate|]. injection H as <-. split; [|apply set_slot_with]. apply slot_wf; auto; [congruence| |]; cbn [targets].
        -- intros y I. split; auto. eapply Permutation_in in I; [|apply insert_perm]. destruct I as [<-|I]; auto.
        -- intros U. eapply Permutation_NoDup; [symmetry; apply insert_perm|]. constructor; [apply index_of_none; apply Z.eqb_eq; auto|]. rewrite <- TR. apply (wf_once _ _ W). auto.
      * destruct (nth_error (refs (r_slot (heap s a) f)) (Z.to_nat pos)) as [y|] eqn:NE; [|discriminate]. injection H as <-. split; [|apply set_slot_with].
        assert (PM : Permutation (insert_at (firstn (Z.to_nat pos) (refs (r_slot (heap s a) f)) ++ skipn (S (Z.to_nat pos)) (refs (r_slot (heap s a) f))) (Z.to_nat (index_of x (refs (r_slot (heap s a) f)))) y) (refs (r_slot (heap s a) f))).
        { rewrite insert_perm. apply removed_perm. auto. }
        apply slot_wf; auto; [congruence| |]; cbn [targets].
        -- intros z I. split; auto. eapply Permutation_in in I; [|exact PM]. auto.
        -- intros U. eapply Permutation_NoDup; [symmetry; exact PM|]. rewrite <- TR. apply (wf_once _ _ W). auto.
  - destruct v as [|x|]; try discriminate.
    + specialize (NX x eq_refl). apply obind_ok in H. destruct H as (s1 & C & H).
      assert (H' : s' = set_slot a f (SRef x) s1 /\ (m_contain M f = true -> targets (r_slot (heap s a) f) = [])).
      { destruct (m_contain M f) eqn:CT; [|injection H as <-; split; [auto|discriminate]]. pose proof (wf_shape _ _ W a f) as S1. destruct (r_slot (heap s a) f) eqn:SL; try discriminate; injection H as <-; split; auto. cbn in S1. congruence. }
      destruct H' as [-> CE]. eapply put_ok; eauto; cbn [targets].
      * intros CT _. rewrite (CE CT). reflexivity.
      * intros y [->|[]]; auto.
      * intros _. constructor; [intros []|constructor].
    + destruct (m_contain M f) eqn:CT; [discriminate|]. injection H as <-. split; [|apply set_slot_with]. apply slot_wf; auto; [congruence|cbn; auto|intros x []|intros; constructor].
Qed.

(** ** Elements *)
Lemma heap_ok : forall h s, ok s -> wf (with_heap h s) -> ok (with_heap h s).
Proof. intros h s (W & R) W'. split; auto. Qed.
Lemma set_ok : forall a f v pos s s', setFeatureValue M (Some a) f v pos s = Ok s' -> ok s -> (a < next s)%nat -> (forall x, v = FObject x -> (x < next s)%nat) ->
  ok s' /\ later s s' /\ objects s' = objects s.
Proof. intros a f v pos s s' H O NA NX. destruct (setFeature_ok _ _ _ _ _ _ (proj1 O) NA NX H) as (W & h & ->). split; [apply heap_ok; auto|]. split; [split; auto|reflexivity]. Qed.
Lemma proxy_ok : forall a id s, ok s -> ok (handleProxy op a id s) /\ later s (handleProxy op a id s) /\ objects (handleProxy op a id s) = objects s.
Proof.
  intros a id s O. unfold handleProxy. destruct (op_uri op id); [|split; auto; split; [apply later_refl|auto]]. unfold set_proxy. split; [|split; [split; auto|reflexivity]]. apply heap_ok; auto. apply keep_wf; auto. apply O.
Qed.
Lemma id_ok : forall a id s, ok s -> ok (set_id a id s) /\ later s (set_id a id s) /\ objects (set_id a id s) = objects s.
Proof. intros a id s O. unfold set_id. split; [|split; [split; auto|reflexivity]]. apply heap_ok; auto. apply keep_wf; auto. apply O. Qed.
Lemma ok_obj : forall s a, ok s -> In (Some a) (objects s) -> (a < next s)%nat.
Proof. intros s a (_ & O & _). auto. Qed.
Lemma ok_ref : forall s r, ok s -> In r (references s) -> (x_object r < next s)%nat.
Proof. intros s r (_ & _ & R & _). auto. Qed.
Lemma ok_def : forall s a, ok s -> In a (deferred s) -> (a < next s)%nat.
Proof. intros s a (_ & _ & _ & _ & D). auto. Qed.
Lemma error_ok : forall e s, ok s -> ok (with_error e s).
Proof. intros e s (W & R). split; auto. eapply wf_same; [|exact W]. repeat split; auto. Qed.
Lemma stacks_ok : forall o t s, ok s -> (forall a, In (Some a) o -> (a < next s)%nat) -> ok (with_stacks o t s).
Proof. intros o t s (W & _ & R) H. split; [eapply wf_same; [|exact W]; repeat split; auto|]. split; auto. Qed.
Lemma create_ok : forall c s, ok s -> ok (snd (create c s)).
Proof.
  intros c s (W & O & R & D & DR). split; [apply create_wf; auto|]. cbn [snd create objects next references deferred]. repeat split; auto.
  - intros a I. specialize (O a I). lia.
  - intros r I. specialize (R r I). lia.
  - intros a I. specialize (DR a I). lia.
Qed.
Lemma plain_created : forall c s r s', ok s -> create_plain M c s = (r, s') -> ok s' /\ later s s' /\ objects s' = objects s /\ (forall a, r = Some a -> (next s <= a < next s')%nat).
Proof.
  intros c s r s' O H. unfold create_plain in H. destruct c as [c|]; [destruct (m_abstract M c)|]; try (injection H as <- <-; split; auto; split; [apply later_refl|]; split; auto; discriminate).
  cbn [create] in H. injection H as <- <-. split; [apply create_ok; auto|]. split; [split; cbn; auto|]. split; auto. intros a E. injection E as <-. cbn [next]. lia.
Qed.
Lemma process_ok : forall r s, ok s -> (forall a, r = Some a -> (a < next s)%nat) -> ok (processObject r s) /\ later s (processObject r s).
Proof.
  intros [a|] s O H; cbn [processObject].
  - split; [|split; auto]. apply stacks_ok; auto. intros b [E|I]; [injection E as <-; auto|]. apply (ok_obj s); auto.
  - split; [|split; auto]. apply stacks_ok; auto. intros b. apply ok_obj; auto.
Qed.
Lemma placed_ok : forall (o f : nat) (r : option nat) s s', ok s -> (o < next s)%nat -> (forall a, r = Some a -> (a < next s)%nat) ->
  match r with Some a => setFeatureValue M (Some o) f (FObject a) (-1) s | None => Ok s end = Ok s' -> ok s' /\ later s s'.
Proof.
  intros o f [a|] s s' O N R H.
  - destruct (set_ok _ _ _ _ _ _ H O N ltac:(intros x E; injection E as <-; apply R; reflexivity)) as (A & B & _). auto.
  - injection H as <-. split; auto. apply later_refl.
Qed.
Lemma proxy_feature_ok : forall o f s r s', ok s -> (o < next s)%nat -> proxy_from_feature M o f s = Ok (r, s') -> ok s' /\ later s s'.
Proof.
  intros o f s r s' O N H. unfold proxy_from_feature in H. destruct (create_plain M (Some (m_type M f)) s) as [r1 s1] eqn:C. destruct (plain_created _ _ _ _ O C) as (O1 & L1 & _ & R1).
  apply obind_ok in H. destruct H as (s2 & P & H). destruct (placed_ok o f r1 s1 s2 O1 ltac:(destruct L1; lia) ltac:(intros a E; destruct (R1 a E); auto) P) as (O2 & L2). injection H as <- <-.
  destruct (process_ok r1 s2 O2 ltac:(intros a E; destruct (R1 a E), L2; lia)) as (O3 & L3). split; auto. eapply later_trans; eauto. eapply later_trans; eauto.
Qed.
Lemma proxy_name_ok : forall o q f s r s', ok s -> (o < next s)%nat -> proxy_from_name M o q f s = Ok (r, s') -> ok s' /\ later s s'.
Proof.
  intros o q f s r s' O N H. unfold proxy_from_name in H. destruct (split_qname q) as [p l]. apply obind_ok in H. destruct H as (sp & _ & H). destruct (m_package M sp) as [pk|].
  2:{ injection H as <- <-. split; [apply error_ok; auto|split; auto]. }
  destruct (create_plain M (m_class M pk l) s) as [r1 s1] eqn:C. destruct (plain_created _ _ _ _ O C) as (O1 & L1 & _ & R1).
  set (s2 := match r1 with Some _ => s1 | None => with_error (UnknownClass sp l) s1 end) in *.
  assert (X : ok s2 /\ next s2 = next s1 /\ later s s2). { unfold s2. destruct r1; auto. split; [apply error_ok; auto|]. split; auto. } destruct X as (O2 & N2 & L2).
  apply obind_ok in H. destruct H as (s3 & P & H). destruct (placed_ok o f r1 s2 s3 O2 ltac:(destruct L2; lia) ltac:(intros a E; destruct (R1 a E); lia) P) as (O3 & L3). injection H as <- <-.
  destruct (process_ok r1 s3 O3 ltac:(intros a E; destruct (R1 a E), L3; lia)) as (O4 & L4). split; auto. eapply later_trans; eauto. eapply later_trans; eauto.
Qed.
Lemma ids_ok : forall o f tokens q pos lt s pos' lt' s', ok s -> (o < next s)%nat -> (forall r, In r lt -> (x_object r < next s)%nat) ->
  ids_loop M op o f tokens q pos lt s = Ok (pos', lt', s') -> ok s' /\ later s s' /\ (forall r, In r lt' -> (x_object r < next s')%nat).
Proof.
  intros o f tokens. induction tokens as [|id tokens IH]; intros q pos lt s pos' lt' s' O N R H.
  { cbn in H. injection H as <- <- <-. split; auto. split; auto. apply later_refl. }
  assert (STEP : forall q1 p1 lt1 s1, ok s1 -> later s s1 -> (forall r, In r lt1 -> (x_object r < next s1)%nat) -> ids_loop M op o f tokens q1 p1 lt1 s1 = Ok (pos', lt', s') -> ok s' /\ later s s' /\ (forall r, In r lt' -> (x_object r < next s')%nat)).
  { intros q1 p1 lt1 s1 O1 L1 R1 H1. destruct (IH q1 p1 lt1 s1 pos' lt' s' O1 ltac:(destruct L1; lia) R1 H1) as (A & B & C). split; auto. split; auto. eapply later_trans; eauto. }
  cbn [ids_loop] in H. destruct (0 <? str_index 35 id).
  - apply obind_ok in H. destruct H as ((r1 & s1) & P & H).
    assert (X : ok s1 /\ later s s1) by (destruct q; [eapply proxy_feature_ok; eauto|eapply proxy_name_ok; eauto]). destruct X as (O1 & L1).
    set (s2 := match r1 with Some a => handleProxy op a id s1 | None => s1 end) in *.
    assert (X : ok s2 /\ later s1 s2). { unfold s2. destruct r1; [|split; [auto|apply later_refl]]. destruct (proxy_ok n id s1 O1) as (A & B & _). auto. } destruct X as (O2 & L2).
    destruct (objects s2) as [|x rest] eqn:OB; [discriminate|]. apply STEP in H; auto.
    + apply stacks_ok; auto. intros a I. apply (ok_obj s2); auto. rewrite OB. cbn. auto.
    + eapply later_trans; [exact L1|]. eapply later_trans; [exact L2|]. split; auto.
    + intros r I. specialize (R r I). destruct L1, L2. cbn [next with_stacks]. lia.
  - destruct ((str_index 35 id =? -1) && negb (str_index 58 id =? -1)); [eapply STEP; eauto; apply later_refl|].
    set (id' := if str_index 35 id =? 0 then tl id else id) in *.
    assert (R' : forall r, In r (lt ++ [mkRef o f id' pos]) -> (x_object r < next s)%nat) by (intros r I; apply in_app_or in I; destruct I as [I|[<-|[]]]; auto).
    destruct (op_deferred op); [eapply STEP; eauto; apply later_refl|]. apply obind_ok in H. destruct H as (x & L & H). destruct x as [x|]; [|eapply STEP; eauto; apply later_refl].
    apply obind_ok in H. destruct H as (s1 & P & H). destruct (set_ok _ _ _ _ _ _ P O N ltac:(intros y E; injection E as <-; eapply lookup_range; eauto; apply O)) as (O1 & L1 & _).
    eapply STEP; eauto. intros r I. specialize (R r I). destruct L1. lia.
Qed.
Lemma value_ok : forall o f ids s s', ok s -> (o < next s)%nat -> setValueFromId M op o f ids s = Ok s' -> ok s' /\ later s s'.
Proof.
  intros o f ids s s' O N H. unfold setValueFromId in H. apply obind_ok in H. destruct H as (((pos & lt) & s1) & P & H). destruct (ids_ok o f _ _ _ [] s _ _ _ O N (fun r (i : In r []) => match i with end) P) as (O1 & L1 & R1).
  destruct (pos =? 0).
  - destruct (set_ok _ _ _ _ _ _ H O1 ltac:(destruct L1; lia) ltac:(discriminate)) as (A & B & _). split; auto. eapply later_trans; eauto.
  - injection H as <-. split; auto. destruct O1 as (W & OB & RF & D). split; [eapply wf_same; [|exact W]; repeat split; auto|]. split; auto. split; auto. intros r I. cbn in I. apply in_app_or in I. destruct I; auto.
Qed.
Lemma attributes_ok : forall o l s s', ok s -> (o < next s)%nat -> handleAttributes M op o l s = Ok s' -> ok s' /\ later s s'.
Proof.
  intros o l. induction l as [|((uri & name) & value) l IH]; intros s s' O N H.
  - cbn in H. injection H as <-. split; auto. apply later_refl.
  - cbn [handleAttributes] in H. apply obind_ok in H. destruct H as (s1 & P & H).
    assert (X : ok s1 /\ later s s1).
    { destruct (str_eqb name (op_id op)).
      - injection P as <-. destruct (op_manager op); [|split; [auto|apply later_refl]]. destruct (id_ok o value s O) as (A & B & _). auto.
      - destruct (str_eqb name (lit "href")). { injection P as <-. destruct (proxy_ok o value s O) as (A & B & _). auto. }
        destruct (_ && _) in P; [|injection P as <-; split; [auto|apply later_refl]]. unfold setAttributeValue in P. destruct (getFeature M (r_class (heap s o)) (snd (split_qname name))) as [f|].
        + destruct (m_kind M f); try solve [eapply value_ok; eauto]; destruct (set_ok _ _ _ _ _ _ P O N ltac:(discriminate)) as (A & B & _); auto.
        + injection P as <-. split; [apply error_ok; auto|split; auto]. }
    destruct X as (O1 & L1). destruct (IH s1 s' O1 ltac:(destruct L1; lia) H) as (A & B). split; auto. eapply later_trans; eauto.
Qed.
Lemma created_ok : forall c s r s', ok s -> createObject M op c s = Ok (r, s') -> ok s' /\ later s s' /\ (forall a, r = Some a -> (next s <= a < next s')%nat).
Proof.
  intros c s r s' O H. unfold createObject in H. destruct (create_plain M c s) as [r1 s1] eqn:C. destruct (plain_created _ _ _ _ O C) as (O1 & L1 & _ & R1). destruct r1 as [a|].
  - apply obind_ok in H. destruct H as (s2 & P & H). injection H as <- <-. destruct (R1 a eq_refl) as (A1 & A2). destruct (attributes_ok _ _ _ _ O1 A2 P) as (O2 & L2). split; auto. split; [eapply later_trans; eauto|]. intros b E. injection E as <-. destruct L2. lia.
  - injection H as <- <-. split; [auto|]. split; [auto|discriminate].
Qed.
Lemma feature_type_ok : forall o f s s', ok s -> (o < next s)%nat -> createObjectFromFeatureType M op o f s = Ok s' -> ok s' /\ later s s'.
Proof.
  intros o f s s' O N H. unfold createObjectFromFeatureType in H. apply obind_ok in H. destruct H as ((r1 & s1) & C & H). destruct (created_ok _ _ _ _ O C) as (O1 & L1 & R1).
  apply obind_ok in H. destruct H as (s2 & P & H). destruct (placed_ok o f r1 s1 s2 O1 ltac:(destruct L1; lia) ltac:(intros a E; destruct (R1 a E); auto) P) as (O2 & L2). injection H as <-.
  destruct (process_ok r1 s2 O2 ltac:(intros a E; destruct (R1 a E), L2; lia)) as (O3 & L3). split; auto. eapply later_trans; eauto. eapply later_trans; eauto.
Qed.
Lemma type_name_ok : forall o q f s s', ok s -> (o < next s)%nat -> createObjectFromTypeName M op o q f s = Ok s' -> ok s' /\ later s s'.
Proof.
  intros o q f s s' O N H. unfold createObjectFromTypeName in H. destruct (split_qname q) as [p l]. apply obind_ok in H. destruct H as (sp & _ & H). destruct (m_package M sp) as [pk|].
  2:{ injection H as <-. split; [apply error_ok; auto|split; auto]. }
  apply obind_ok in H. destruct H as ((r1 & s1) & C & H). destruct (created_ok _ _ _ _ O C) as (O1 & L1 & R1).
  set (s2 := match r1 with Some _ => s1 | None => with_error (UnknownClass sp l) s1 end) in *.
  assert (X : ok s2 /\ next s2 = next s1 /\ later s s2). { unfold s2. destruct r1; auto. split; [apply error_ok; auto|]. split; auto. } destruct X as (O2 & N2 & L2).
  apply obind_ok in H. destruct H as (s3 & P & H). destruct (placed_ok o f r1 s2 s3 O2 ltac:(destruct L2; lia) ltac:(intros a E; destruct (R1 a E); lia) P) as (O3 & L3). injection H as <-.
  destruct (process_ok r1 s3 O3 ltac:(intros a E; destruct (R1 a E), L3; lia)) as (O4 & L4). split; auto. eapply later_trans; eauto. eapply later_trans; eauto.
Qed.
Lemma feature_step_ok : forall local s s', ok s -> handleFeature M op local s = Ok s' -> ok s'.
Proof.
  intros local s s' O H. unfold handleFeature in H. destruct (objects s) as [|[o|] rest] eqn:OB.
  - injection H as <-. apply error_ok. apply stacks_ok; auto. intros a [].
  - assert (N : (o < next s)%nat) by (apply (ok_obj s); auto; rewrite OB; cbn; auto). destruct (getFeature M (r_class (heap s o)) local) as [f|]; [|injection H as <-; apply error_ok; auto].
    assert (T : forall s2, Ok (with_text (Some []) (with_stacks (None :: Some o :: rest) (TFeature f :: types s) s)) = Ok s2 -> ok s2).
    { intros s2 E. injection E as <-. assert (Y : ok (with_stacks (None :: Some o :: rest) (TFeature f :: types s) s)) by (apply stacks_ok; auto; intros a [E|I]; [discriminate|]; apply (ok_obj s); auto; rewrite OB; auto). destruct Y as (W & Y). split; auto. eapply wf_same; [|exact W]. repeat split; auto. }
    assert (U : match getAttributeValue xsiURI (lit "type") (attributes s) with [] => createObjectFromFeatureType M op o f s | q => createObjectFromTypeName M op o q f s end = Ok s' -> ok s').
    { destruct (getAttributeValue _ _ _); intros E; [eapply feature_type_ok; eauto|eapply type_name_ok; eauto]. }
    destruct (m_kind M f); auto.
  - injection H as <-. apply error_ok. apply stacks_ok; auto. intros a I. apply (ok_obj s); auto. rewrite OB. auto.
Qed.
Lemma contents_ok : forall l s s', ok s -> NoDup l -> (forall x, In x l -> (x < next s)%nat) -> attach l s = Ok s' -> ok s'.
Proof. intros l s s' (W & O) ND R H. destruct (attach_wf l s s' W ND R H) as (W' & ->). split; auto. Qed.
Lemma element_ok : forall space local s s', ok s -> processElement M op space local s = Ok s' -> ok s'.
Proof.
  intros space local s s' O H. unfold processElement in H. destruct (objects s) as [|x rest]; [|eapply feature_step_ok; eauto].
  destruct (m_package M space) as [p|]; [|injection H as <-; apply error_ok; auto]. apply obind_ok in H. destruct H as ((r1 & s1) & C & H). destruct (created_ok _ _ _ _ O C) as (O1 & L1 & R1).
  destruct r1 as [a|]; [|injection H as <-; apply (process_ok None (with_error (UnknownClass space local) s1)); [apply error_ok; auto|discriminate]]. destruct (R1 a eq_refl) as (A1 & A2). destruct (process_ok (Some a) s1 O1 ltac:(intros b E; injection E as <-; auto)) as (O2 & L2).
  destruct (op_root op).
  - injection H as <-. destruct O2 as (W & OB & RF & D & DR). split; [eapply wf_same; [|exact W]; repeat split; auto|]. split; [exact OB|]. split; [exact RF|]. cbn [deferred with_deferred next]. split.
    + eapply Permutation_NoDup; [apply Permutation_cons_append|]. constructor; auto. intros I. destruct L1 as [_ L1], L2 as [_ L2]. change (In a (deferred s1)) in I. rewrite L1 in I. apply ok_def in I; auto. lia.
    + intros b I. apply in_app_or in I. destruct I as [I|[<-|[]]]; [apply DR; auto|]. exact A2.
  - eapply contents_ok; eauto; [constructor; [intros []|constructor]|]. intros b [<-|[]]. exact A2.
Qed.
Lemma spaces_fine : forall n m s, ok s -> ok (with_spaces n m s).
Proof. intros n m s (W & R). split; auto. eapply wf_same; [|exact W]. repeat split; auto. Qed.
Lemma prefixes_ok : forall l s s', ok s -> handlePrefixMapping l s = Ok s' -> ok s'.
Proof.
  intros l. induction l as [|((sp & lo) & v) l IH]; intros s s' O H.
  - cbn in H. injection H as <-. auto.
  - cbn [handlePrefixMapping] in H. apply obind_ok in H. destruct H as (s1 & P & H). eapply IH; [|exact H].
    assert (D : forall p w s2, (let+ n := of_panic (XmlNsModel.declarePrefix (spaces s) (to_ns p) (to_ns w)) in
      match XmlNsModel.startPrefixMapping (prefixes s) (to_ns p) (to_ns w) with XmlNsModel.Done m => Ok (with_spaces (fst n) m s) | XmlNsModel.Diverges => Diverges end) = Ok s2 -> ok s2).
    { intros p w s2 E. apply obind_ok in E. destruct E as (n & _ & E). destruct (XmlNsModel.startPrefixMapping (prefixes s) (to_ns p) (to_ns w)); try discriminate. injection E as <-. apply spaces_fine. auto. }
    destruct (str_eqb sp (lit "xmlns")); [eapply D; eauto|]. destruct (str_eqb sp [] && str_eqb lo (lit "xmlns")); [eapply D; eauto|]. injection P as <-. auto.
Qed.
Lemma references_ok : forall l s s', ok s -> (forall r, In r l -> (x_object r < next s)%nat) -> handleReferences M op l s = Ok s' -> ok s'.
Proof.
  intros l. induction l as [|r l IH]; intros s s' O R H.
  - cbn in H. injection H as <-. auto.
  - cbn [handleReferences] in H. apply obind_ok in H. destruct H as (x & L & H). apply obind_ok in H. destruct H as (s1 & P & H). destruct x as [x|].
    + destruct (set_ok _ _ _ _ _ _ P O (R r ltac:(cbn; auto)) ltac:(intros y E; injection E as <-; eapply lookup_range; eauto; apply O)) as (O1 & L1 & _). eapply IH; [exact O1| |exact H]. intros r' I. specialize (R r' ltac:(cbn; auto)). destruct L1. lia.
    + injection P as <-. eapply IH; [apply error_ok; exact O| |exact H]. intros r' I. apply R. cbn. auto.
Qed.
Lemma step_ok : forall t s s', ok s -> step M op t s = Ok s' -> ok s'.
Proof.
  assert (EL : forall n s, ok s -> ok (with_elements n s)) by (intros n s (W & R); split; auto; eapply wf_same; [|exact W]; repeat split; auto).
  assert (AL : forall l s, ok s -> ok (with_attributes l s)) by (intros l s (W & R); split; auto; eapply wf_same; [|exact W]; repeat split; auto).
  assert (TX : forall l s, ok s -> ok (with_text l s)) by (intros l s (W & R); split; auto; eapply wf_same; [|exact W]; repeat split; auto).
  intros t s s' O H. destruct t as [space local l| |t|]; cbn [step] in H.
  - unfold startElement in H. apply obind_ok in H. destruct H as (n & _ & H). apply obind_ok in H. destruct H as (s1 & P & H). eapply element_ok; [|exact H]. eapply prefixes_ok; [|exact P]. apply spaces_fine. apply AL, EL. auto.
  - unfold endElement in H. cbn [objects types with_elements with_stacks] in H. set (s1 := with_stacks (tl (objects s)) (tl (types s)) (with_elements (pred (elements s)) s)) in *.
    assert (O1 : ok s1). { apply stacks_ok; [apply EL; auto|]. intros a I. apply (ok_obj s); auto. destruct (objects s); cbn in *; auto. }
    apply obind_ok in H. destruct H as (s2 & P & H).
    assert (O2 : ok s2).
    { destruct (textBuilder s1) as [t|]; [|injection P as <-; auto]. destruct (match types s with t0 :: _ => Some t0 | [] => None end) as [[| |f]|]; try discriminate.
      - destruct t as [|c t]; [injection P as <-; auto|]. destruct (match objects s with x :: _ => x | [] => None end) as [a|]; [|discriminate]. injection P as <-. apply proxy_ok. auto.
      - injection P as <-. auto.
      - set (o := match match objects s with x :: _ => x | [] => None end with Some _ => _ | None => _ end) in *. destruct o as [a|] eqn:OE; [|discriminate]. eapply set_ok; [exact P|exact O1| |discriminate].
        unfold o in OE. change (next s1) with (next s). apply ok_obj; auto. unfold s1 in OE. cbn [objects with_stacks] in OE. destruct (objects s) as [|[x|] rest]; cbn [tl] in OE; try discriminate.
        + injection OE as ->. cbn. auto.
        + destruct rest as [|y rest]; [discriminate|]. subst y. cbn. auto. }
    apply obind_ok in H. destruct H as (s3 & P3 & H). assert (O3 : ok s3).
    { destruct (elements (with_text None s2)); [|injection P3 as <-; auto]. apply obind_ok in P3. destruct P3 as (s4 & A & P3).
      pose proof (TX None s2 O2) as O2'. assert (O4 : ok s4) by (eapply contents_ok; [exact O2'|apply O2'|intros x; apply ok_def; exact O2'|exact A]). eapply references_ok; [exact O4|intros r; apply ok_ref; exact O4|exact P3]. }
    apply obind_ok in H. destruct H as (n & _ & H). injection H as <-. apply spaces_fine. auto.
  - injection H as <-. unfold addText. destruct (textBuilder s); auto.
  - injection H as <-. auto.
Qed.
Lemma steps_ok : forall ts s s', ok s -> steps M op ts s = Ok s' -> ok s'.
Proof.
  intros ts. induction ts as [|t ts IH]; intros s s' O H.
  - cbn in H. injection H as <-. auto.
  - cbn [steps] in H. apply obind_ok in H. destruct H as (s1 & P & H). eapply IH; [|exact H]. eapply step_ok; eauto.
Qed.
Lemma new_ok : ok new_reader.
Proof.
  split; [|cbn; split; [intros a []|split; [intros r []|split; [constructor|intros a []]]]]. constructor; cbn; try tauto; try discriminate.
  - intros. constructor.
  - split; [constructor|intros x []].
Qed.
Lemma decode_wf : forall text s, decode M op text = Ok s -> wf s.
Proof.
  intros text s H. unfold decode in H. destruct (tokens_of text) as [ts fine]. apply obind_ok in H. destruct H as (s1 & P & H). assert (O : ok s1) by (eapply steps_ok; [apply new_ok|exact P]).
  injection H as <-. destruct fine; [apply O|]. apply error_ok. auto.
Qed.
End Heap.
