(** The calls that Copy makes on the object graph. *)
From Verif Require Import Base ListModel ListSpec ListProofs GraphModel GraphSpec GraphProofs GraphInv GraphSteps CopyModel CopySpec.

Lemma fresh_all (l s : list nat) : NoDup l -> (forall x, In x l -> ~ In x s) -> fresh Nat.eqb s l = l.
Proof.
  revert s. induction l as [|x l IH]; intros s Hnd Hs; [reflexivity|]. cbn [fresh].
  inversion Hnd as [|? ? Hx Hl]; subst.
  destruct (member Nat.eqb x s) eqn:E.
  - apply (member_in Nat.eqb neqb_ok) in E. exfalso. apply (Hs x); [now left|assumption].
  - f_equal. apply IH; [assumption|]. intros y Hy [<-|Hin]; [contradiction|]. apply (Hs y); [now right|assumption].
Qed.

Lemma effect_addAll (l : list nat) : NoDup l -> exists cb, list_effect [] (AddAll (Ext l)) = Some (match l with [] => [] | _ => [(l, cb)] end, [], l).
Proof.
  intro Hnd. cbn [list_effect elems].
  rewrite (getNonDuplicates_ok Nat.eqb 0%nat neqb_ok) by (left; cbn; lia).
  rewrite fresh_all by (auto; intros ? ? []).
  destruct l as [|x l]; [exists []; reflexivity|].
  rewrite (zlen_fresh_zero Nat.eqb 0%nat neqb_ok). rewrite doInsertAll_eq by (cbn; lia). cbn [obind].
  eexists. unfold insert_all_at. cbn [firstn skipn app zlen length Z.of_nat Z.to_nat]. rewrite app_nil_r. reflexivity.
Qed.

Lemma effect_insert (d r : list nat) x : ~ In x (d ++ r) ->
  exists cb, list_effect (d ++ r) (Insert (zlen d) x) = Some ([(d ++ x :: r, cb)], [], [x]).
Proof.
  intro Hx. cbn [list_effect].
  destruct (Z.ltb_spec (zlen d) 0); [zl|]. destruct (Z.gtb_spec (zlen d) (zlen (d ++ r))); [zl|]. cbn [orb].
  rewrite (contains_member Nat.eqb neqb_ok).
  assert (member Nat.eqb x (d ++ r) = false) as -> by (now apply (member_not_in Nat.eqb neqb_ok)).
  rewrite doInsert_eq by zl. cbn [obind]. eexists. rewrite insert_at_app by reflexivity. reflexivity.
Qed.

Lemma effect_move (d r1 r2 : list nat) x : NoDup (d ++ r1 ++ x :: r2) ->
  exists cb, list_effect (d ++ r1 ++ x :: r2) (MoveObject (zlen d) x) = Some ([(d ++ x :: r1 ++ r2, cb)], [], []).
Proof.
  intro Hnd. cbn [list_effect].
  assert (E : indexOf Nat.eqb (d ++ r1 ++ x :: r2) x = zlen (d ++ r1)).
  { rewrite (indexOf_spec Nat.eqb). rewrite app_assoc.
    rewrite app_assoc in Hnd. apply NoDup_remove_2 in Hnd.
    assert (forall l, ~ In x l -> first_pos Nat.eqb (l ++ x :: r2) x = Some (length l)) as ->; [|reflexivity|].
    - induction l as [|y l IH]; intro H; cbn [app first_pos length].
      + now rewrite Nat.eqb_refl.
      + destruct (Nat.eqb_spec y x) as [->|]; [exfalso; apply H; now left|].
        rewrite IH by (intro; apply H; now right). reflexivity.
    - intro Hin. apply Hnd. apply in_or_app. now left. }
  rewrite E. destruct (Z.eqb_spec (zlen (d ++ r1)) (-1)); [zl|].
  rewrite (doMove_eq _ _ _ x); [| |zl|zl].
  - cbn [obind]. eexists. unfold move.
    rewrite (app_assoc d r1 (x :: r2)). rewrite delete_at_app by reflexivity.
    rewrite <- app_assoc. rewrite insert_at_app by reflexivity. reflexivity.
  - rewrite app_assoc. apply nth_error_mid. reflexivity.
Qed.

Section CopySteps.
  Context (M : metamodel) (W : wf_metamodel M).
  Notation f_many := (f_many M). Notation f_cont := (f_cont M). Notation f_opp := (f_opp M).
  Notation f_id := (f_id M). Notation features := (features M).
  Notation isContainer := (isContainer M). Notation link_typed := (link_typed M).
  Notation GInv := (GInv M). Notation RInv := (RInv M). Notation code := (code M).

  Lemma removeFromContainer_none g x : container g x = None -> removeFromContainer M g x = Some g.
  Proof. intro E. unfold removeFromContainer. now rewrite E. Qed.

  (** an object without container and resource enters a containment reference *)
  Lemma inverseAdd_new g c f x : f_cont f = true -> link_typed c f x -> container g x = None -> internalResource g x = None ->
    listInverseAdd M g c f x = Some (setContainer g x (Some c) (code f)).
  Proof.
    intros Hf [T1 T2] Hc Hr. unfold listInverseAdd, GraphInv.code.
    destruct (GraphModel.f_opp M f) as [q|] eqn:Eq.
    - specialize (T2 _ eq_refl). destruct (opp_container M W f q Hf Eq) as (Hqc & Hqm & _).
      apply (feat M W) in T2 as (Hat & Hid & H0). unfold inverseAdd.
      destruct (Z.geb_spec (f_id q) 0); [|lia]. unfold basicInverseAdd. rewrite Hat. cbn [obind].
      rewrite Hqm, Hqc. rewrite removeFromContainer_none by assumption. cbn [obind].
      unfold basicSetContainer. rewrite Hr. cbn [obind]. now rewrite Hid.
    - rewrite Hf. apply (feat M W) in T1 as (_ & _ & H0). unfold inverseAdd.
      destruct (Z.geb_spec (BASE - f_id f) 0); [unfold BASE in *; lia|].
      rewrite removeFromContainer_none by assumption. cbn [obind].
      unfold basicSetContainer. rewrite Hr. reflexivity.
  Qed.

  (** [g'] is [g] in which the objects [l] entered the reference [f] of [c] *)
  Record entered (g g' : state) (c : obj) (f : feature) (l : list obj) : Prop := {
    e_slot : slot g' c f = l;
    e_slots : forall a k, a <> c \/ k <> f -> slot g' a k = slot g a k;
    e_in : forall x, In x l -> container g' x = Some c;
    e_out : forall z, ~ In z l -> container g' z = container g z /\ containerFeatureID g' z = containerFeatureID g z;
    e_res : internalResource g' = internalResource g /\ contents g' = contents g /\ loaded g' = loaded g
  }.

  Lemma fold_new c f l : f_cont f = true -> NoDup l -> forall g,
    (forall x, In x l -> link_typed c f x /\ container g x = None /\ internalResource g x = None) ->
    exists g', foldM (fun s x => listInverseAdd M s c f x) l g = Some g' /\ slot g' = slot g /\
      (forall x, In x l -> container g' x = Some c) /\
      (forall z, ~ In z l -> container g' z = container g z /\ containerFeatureID g' z = containerFeatureID g z) /\
      internalResource g' = internalResource g /\ contents g' = contents g /\ loaded g' = loaded g.
  Proof.
    intros Hf Hnd. induction Hnd as [|x l Hx Hl IH]; intros g Hg; cbn [foldM].
    - exists g. repeat split; auto. intros x [].
    - destruct (Hg x (or_introl eq_refl)) as (T & C & R).
      rewrite inverseAdd_new by assumption. cbn [obind].
      destruct (IH (setContainer g x (Some c) (code f))) as (g' & E & Es & Hin & Hout & Hr1 & Hr2 & Hr3).
      { intros y Hy. destruct (Hg y (or_intror Hy)) as (T' & C' & R'). split; [assumption|]. split; [|exact R'].
        cbn. rewrite upd_ne by (intros ->; contradiction). assumption. }
      exists g'. split; [exact E|]. split; [exact Es|]. split; [|split; [|repeat split; assumption]].
      + intros y [<-|Hy]; [|now apply Hin]. destruct (Hout _ Hx) as [-> _]. cbn. apply upd_eq.
      + intros z Hz. destruct (Hout z) as [-> ->]; [intro; apply Hz; now right|].
        cbn. rewrite !upd_ne by (intros ->; apply Hz; now left). split; reflexivity.
  Qed.

  Lemma step_reachable g p g' : reachable M g -> legal M g p -> gstep M g p = Some g' -> reachable M g'.
  Proof. intros. eapply reach_step; eassumption. Qed.

  Lemma setMany_new g c f l : reachable M g -> In f (features c) -> f_many f = true -> f_cont f = true -> slot g c f = [] -> NoDup l ->
    (forall x, In x l -> link_typed c f x /\ container g x = None /\ internalResource g x = None) ->
    exists g', setMany M Generated g c f l = Some g' /\ reachable M g' /\ entered g g' c f l.
  Proof.
    intros R Hf Hm Hc Hs Hnd Hl. unfold setMany.
    assert (E1 : gstep M g (OList c f Clear) = Some (setSlot g c f [])).
    { cbn [gstep]. rewrite (accessed_own M W) by assumption. cbn [obind]. unfold listOp. rewrite Hs. reflexivity. }
    rewrite E1. cbn [obind].
    assert (L1 : legal M g (OList c f Clear)). { split; [assumption|]. split; [assumption|]. split; [exact Logic.I|]. intros x []. }
    assert (R1 : reachable M (setSlot g c f [])) by (eapply step_reachable; eassumption).
    assert (L2 : legal M (setSlot g c f []) (OList c f (AddAll (Ext l)))).
    { split; [assumption|]. split; [assumption|]. rewrite slot_eq. split; [left; cbn; lia|].
      intros x Hx. now apply Hl. }
    destruct (effect_addAll l Hnd) as (cb & E2).
    destruct (fold_new c f l Hc Hnd (setSlot (setSlot g c f []) c f l)) as (g' & E & Es & Hin & Hout & Hr).
    { intros x Hx. now apply Hl. }
    assert (E3 : gstep M (setSlot g c f []) (OList c f (AddAll (Ext l))) = Some g').
    { cbn [gstep]. rewrite (accessed_own M W) by assumption. cbn [obind]. unfold listOp. rewrite slot_eq, E2. cbn [obind foldM].
      replace (final [] match l with [] => [] | _ :: _ => [(l, cb)] end) with l by (destruct l; reflexivity). exact E. }
    exists g'. split; [exact E3|]. split; [eapply step_reachable; eassumption|]. constructor; auto.
    - rewrite Es. apply slot_eq.
    - intros a k D. rewrite Es. now rewrite !slot_ne by assumption.
  Qed.

  Lemma setOne_new g c f x : reachable M g -> In f (features c) -> f_many f = false -> f_cont f = true -> slot g c f = [] ->
    link_typed c f x -> container g x = None -> internalResource g x = None ->
    exists g', gstep M g (OSet c f (Some x)) = Some g' /\ reachable M g' /\ entered g g' c f [x].
  Proof.
    intros R Hf Hm Hc Hs T C Hr.
    assert (E : gstep M g (OSet c f (Some x)) = Some (setSlot (setContainer g x (Some c) (code f)) c f [x])).
    { cbn [gstep]. rewrite (accessed_own M W) by assumption. cbn [obind]. unfold eSet.
      rewrite (cont_not_container M W f Hc). rewrite Hc, orb_true_r, Hs. cbn [hd_error some_eqb].
      pose proof (inverseAdd_new g c f x Hc T C Hr) as Ei. unfold listInverseAdd in Ei. cbn [when obind].
      destruct (GraphModel.f_opp M f) as [q|] eqn:Eq.
      - destruct T as [_ T2]. specialize (T2 _ Eq). apply (feat M W) in T2 as (_ & -> & _). rewrite Ei. reflexivity.
      - rewrite Hc in Ei. apply (feat M W) in Hf as (_ & -> & _). rewrite Ei. reflexivity. }
    eexists. split; [exact E|]. split.
    - eapply step_reachable; [exact R| |exact E]. split; [assumption|]. split; [assumption|]. intros y [= <-]. assumption.
    - constructor.
      + apply slot_eq.
      + intros a k D. now rewrite slot_ne by assumption.
      + intros y [<-|[]]. cbn. apply upd_eq.
      + intros z Hz. cbn. rewrite !upd_ne by (intros ->; apply Hz; now left). split; reflexivity.
      + repeat split.
  Qed.

  (** ** references *)
  (** [g'] is [g] where only the slots changed *)
  Definition same_but_slots (g g' : state) : Prop :=
    container g' = container g /\ containerFeatureID g' = containerFeatureID g /\ internalResource g' = internalResource g /\
    contents g' = contents g /\ loaded g' = loaded g.

  (** an object enters a list that has an opposite *)
  Lemma insert_bi g c f q x d r : reachable M g -> In f (features c) -> f_many f = true -> f_cont f = false -> f_opp f = Some q -> link_typed c f x ->
    slot g c f = d ++ r -> ~ In x (d ++ r) -> (f_many q = false -> slot g x q = []) ->
    exists g', gstep M g (OList c f (Insert (zlen d) x)) = Some g' /\ reachable M g' /\ same_but_slots g g' /\
      slot g' c f = d ++ x :: r /\ slot g' x q = slot g x q ++ [c] /\
      (forall a k, a <> c \/ k <> f -> a <> x \/ k <> q -> slot g' a k = slot g a k).
  Proof.
    intros R Hf Hm Hc Eq T Hs Hx Hq.
    pose proof (many_not_container M W f Hm) as Hnc.
    destruct (noncont_pair M W f q Eq Hc Hnc) as (Eq' & Hqc & Hqn & Hne).
    destruct (effect_insert d r x Hx) as (cb & Ee).
    assert (E : gstep M g (OList c f (Insert (zlen d) x)) = Some (setSlot (setSlot g c f (d ++ x :: r)) x q (slot g x q ++ [c]))).
    { cbn [gstep]. rewrite (accessed_own M W) by assumption. cbn [obind]. unfold listOp. rewrite Hs, Ee. cbn [obind foldM final].
      unfold listInverseAdd. rewrite Eq. destruct T as [_ T]. specialize (T _ Eq). apply (feat M W) in T as (Hat & _ & H0).
      unfold inverseAdd. destruct (Z.geb_spec (f_id q) 0); [|lia]. unfold basicInverseAdd. rewrite Hat. cbn [obind].
      rewrite slot_ne by auto. destruct (GraphModel.f_many M q) eqn:Em; [reflexivity|].
      rewrite Hqn, (Hq eq_refl). reflexivity. }
    eexists. split; [exact E|]. split; [|split; [repeat split|split; [|split]]].
    - eapply step_reachable; [exact R| |exact E]. split; [assumption|]. split; [assumption|]. split; [exact Logic.I|].
      intros y [<-|[]]. assumption.
    - rewrite slot_ne by auto. apply slot_eq.
    - apply slot_eq.
    - intros a k D1 D2. now rewrite !slot_ne by assumption.
  Qed.

  Lemma move_bi g c f x d r1 r2 : reachable M g -> In f (features c) -> f_many f = true ->
    slot g c f = d ++ r1 ++ x :: r2 ->
    exists g', gstep M g (OList c f (MoveObject (zlen d) x)) = Some g' /\ reachable M g' /\ same_but_slots g g' /\
      slot g' c f = d ++ x :: r1 ++ r2 /\ (forall a k, a <> c \/ k <> f -> slot g' a k = slot g a k).
  Proof.
    intros R Hf Hm Hs. destruct (reachable_ok M W g R) as [G _]. pose proof (g_nodup M g G c f) as Hnd. rewrite Hs in Hnd.
    destruct (effect_move d r1 r2 x Hnd) as (cb & Ee).
    assert (E : gstep M g (OList c f (MoveObject (zlen d) x)) = Some (setSlot g c f (d ++ x :: r1 ++ r2))).
    { cbn [gstep]. rewrite (accessed_own M W) by assumption. cbn [obind]. unfold listOp. rewrite Hs, Ee. reflexivity. }
    eexists. split; [exact E|]. split; [|split; [repeat split|split]].
    - eapply step_reachable; [exact R| |exact E]. split; [assumption|]. split; [assumption|]. split; [exact Logic.I|]. intros y [].
    - apply slot_eq.
    - intros a k D. now rewrite slot_ne by assumption.
  Qed.

  Lemma insert_uni g c f x d r : reachable M g -> In f (features c) -> f_many f = true -> f_cont f = false -> f_opp f = None ->
    slot g c f = d ++ r -> ~ In x (d ++ r) ->
    exists g', gstep M g (OList c f (Insert (zlen d) x)) = Some g' /\ reachable M g' /\ same_but_slots g g' /\
      slot g' c f = d ++ x :: r /\ (forall a k, a <> c \/ k <> f -> slot g' a k = slot g a k).
  Proof.
    intros R Hf Hm Hc Eq Hs Hx. destruct (effect_insert d r x Hx) as (cb & Ee).
    assert (E : gstep M g (OList c f (Insert (zlen d) x)) = Some (setSlot g c f (d ++ x :: r))).
    { cbn [gstep]. rewrite (accessed_own M W) by assumption. cbn [obind]. unfold listOp. rewrite Hs, Ee. cbn [obind foldM final].
      unfold listInverseAdd. now rewrite Eq, Hc. }
    eexists. split; [exact E|]. split; [|split; [repeat split|split]].
    - eapply step_reachable; [exact R| |exact E]. split; [assumption|]. split; [assumption|]. split; [exact Logic.I|].
      intros y _. split; [assumption|]. intros q. rewrite Eq. discriminate.
    - apply slot_eq.
    - intros a k D. now rewrite slot_ne by assumption.
  Qed.

  Lemma set_bi g c f q x : reachable M g -> In f (features c) -> f_many f = false -> f_cont f = false -> isContainer f = false -> f_opp f = Some q ->
    link_typed c f x -> slot g c f = [] -> (f_many q = false -> slot g x q = []) ->
    exists g', gstep M g (OSet c f (Some x)) = Some g' /\ reachable M g' /\ same_but_slots g g' /\
      slot g' c f = [x] /\ slot g' x q = slot g x q ++ [c] /\
      (forall a k, a <> c \/ k <> f -> a <> x \/ k <> q -> slot g' a k = slot g a k).
  Proof.
    intros R Hf Hm Hc Hnc Eq T Hs Hq.
    destruct (noncont_pair M W f q Eq Hc Hnc) as (Eq' & Hqc & Hqn & Hne).
    assert (E : gstep M g (OSet c f (Some x)) = Some (setSlot (setSlot g x q (slot g x q ++ [c])) c f [x])).
    { cbn [gstep]. rewrite (accessed_own M W) by assumption. cbn [obind]. unfold eSet.
      rewrite Hnc. unfold isBidirectional. rewrite Eq, Hs. cbn [orb hd_error some_eqb when obind].
      pose proof T as [_ T2]. specialize (T2 _ Eq). apply (feat M W) in T2 as (Hat & -> & H0).
      unfold inverseAdd. destruct (Z.geb_spec (f_id q) 0); [|lia]. unfold basicInverseAdd. rewrite Hat. cbn [obind].
      destruct (GraphModel.f_many M q) eqn:Em; [reflexivity|]. rewrite Hqn, (Hq eq_refl). reflexivity. }
    eexists. split; [exact E|]. split; [|split; [repeat split|split; [|split]]].
    - eapply step_reachable; [exact R| |exact E]. split; [assumption|]. split; [assumption|]. intros y [= <-]. assumption.
    - apply slot_eq.
    - rewrite slot_ne by auto. apply slot_eq.
    - intros a k D1 D2. now rewrite !slot_ne by assumption.
  Qed.

  Lemma set_bi_same g c f x : In f (features c) -> f_cont f = false -> isContainer f = false -> isBidirectional M f = true ->
    slot g c f = [x] -> gstep M g (OSet c f (Some x)) = Some g.
  Proof.
    intros Hf Hc Hnc Hb Hs. cbn [gstep]. rewrite (accessed_own M W) by assumption. cbn [obind]. unfold eSet.
    rewrite Hnc, Hb, Hs. cbn [orb hd_error some_eqb]. now rewrite Nat.eqb_refl.
  Qed.

  Lemma set_uni g c f x : reachable M g -> In f (features c) -> f_many f = false -> f_cont f = false -> f_opp f = None ->
    exists g', gstep M g (OSet c f (Some x)) = Some g' /\ reachable M g' /\ same_but_slots g g' /\
      slot g' c f = [x] /\ (forall a k, a <> c \/ k <> f -> slot g' a k = slot g a k).
  Proof.
    intros R Hf Hm Hc Eq.
    assert (E : gstep M g (OSet c f (Some x)) = Some (setSlot g c f [x])).
    { cbn [gstep]. rewrite (accessed_own M W) by assumption. cbn [obind]. unfold eSet.
      unfold GraphModel.isContainer, isBidirectional. now rewrite Eq, Hc. }
    eexists. split; [exact E|]. split; [|split; [repeat split|split]].
    - eapply step_reachable; [exact R| |exact E]. split; [assumption|]. split; [assumption|]. intros y [= <-].
      split; [assumption|]. intros q. rewrite Eq. discriminate.
    - apply slot_eq.
    - intros a k D. now rewrite slot_ne by assumption.
  Qed.
End CopySteps.
