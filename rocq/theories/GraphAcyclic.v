From Verif Require Import Base ListModel ListSpec ListProofs NotifyModel NotifyProofs
  GraphModel GraphSpec GraphProofs GraphInv GraphSteps.

Section Acyclic.
  Context (M : metamodel) (W : wf_metamodel M).

  (** containers only change to nothing, or to a pair of L *)
  Definition cstep (L : list (obj * obj)) (s s' : state) : Prop :=
    forall y, container s' y = container s y \/ container s' y = None
              \/ exists p, container s' y = Some p /\ In (y, p) L.

  Lemma cstep_same L s s' : container s' = container s -> cstep L s s'.
  Proof. intros E y. left. now rewrite E. Qed.
  Lemma cstep_refl L s : cstep L s s.
  Proof. now apply cstep_same. Qed.
  Lemma cstep_trans L s1 s2 s3 : cstep L s1 s2 -> cstep L s2 s3 -> cstep L s1 s3.
  Proof.
    intros H1 H2 y. destruct (H2 y) as [E|[E|(p & E & Hp)]]; [|tauto|right; right; eauto].
    rewrite E. apply H1.
  Qed.
  Lemma cstep_incl L L' s s' : incl L L' -> cstep L s s' -> cstep L' s s'.
  Proof. intros H H1 y. destruct (H1 y) as [E|[E|(p & E & Hp)]]; [tauto|tauto|right; right; eauto]. Qed.

  Lemma contentsStages_container r st : forall s, container (contentsStages s r st) = container s.
  Proof. induction st as [|[d cb] st IH]; intro s; cbn [contentsStages]; [reflexivity|]. now rewrite IH. Qed.
  Lemma contentsRemove_container s r x s' : contentsRemove s r x = Some s' -> container s' = container s.
  Proof.
    unfold contentsRemove. destruct (removeWithNotification _ _) as [[d cb]|]; [|discriminate]. cbn [obind].
    intro E. injection E as <-. apply contentsStages_container.
  Qed.

  Lemma basicSetContainer_container s x c id s' : basicSetContainer M s x c id = Some s' ->
    container s' = upd (container s) x c.
  Proof.
    unfold basicSetContainer. destruct (internalResource s x) as [r|]; [|intro E; injection E as <-; reflexivity].
    destruct c as [c|]; [|intro E; injection E as <-; reflexivity].
    destruct (eContainmentFeature M x c id) as [f|]; [|discriminate]. cbn [obind].
    destruct (f_resolve M f); cbn [negb]; [intro E; injection E as <-; reflexivity|].
    destruct (contentsRemove s r x) as [s1|] eqn:E1; [|discriminate]. cbn [obind].
    intro E. injection E as <-. cbn. now rewrite (contentsRemove_container _ _ _ _ E1).
  Qed.
  Lemma basicSetContainer_cstep L s x c id s' : basicSetContainer M s x c id = Some s' ->
    (forall p, c = Some p -> In (x, p) L) -> cstep L s s'.
  Proof.
    intros E H y. rewrite (basicSetContainer_container _ _ _ _ _ E). unfold upd.
    destruct (Nat.eqb_spec y x) as [->|]; [|tauto]. destruct c; [|tauto]. right. right. eauto.
  Qed.
  Lemma unset_cstep L s x id s' : basicSetContainer M s x None id = Some s' -> cstep L s s'.
  Proof. intro E. eapply basicSetContainer_cstep; [eassumption|discriminate]. Qed.

  Lemma inverseRemove_cstep L s x o id s' : inverseRemove M s x o id = Some s' -> cstep L s s'.
  Proof.
    unfold inverseRemove. destruct (id >=? 0); [|apply unset_cstep].
    unfold basicInverseRemove. destruct (feature_at M x id) as [f|]; [|discriminate]. cbn [obind].
    destruct (f_many M f).
    { destruct (removeWithNotification _ _) as [[l cb]|]; [|discriminate]. intro E. injection E as <-. now apply cstep_same. }
    destruct (isContainer M f); [apply unset_cstep|]. intro E. injection E as <-. now apply cstep_same.
  Qed.
  Lemma removeFromContainer_cstep L s x s' : removeFromContainer M s x = Some s' -> cstep L s s'.
  Proof.
    unfold removeFromContainer. destruct (container s x) as [c|]; [|intro E; injection E as <-; apply cstep_refl].
    destruct (containerFeatureID s x >=? 0); [|apply inverseRemove_cstep].
    destruct (feature_at M x _) as [g|]; [|intro E; injection E as <-; apply cstep_refl].
    destruct (f_opp M g); [apply inverseRemove_cstep|intro E; injection E as <-; apply cstep_refl].
  Qed.
  Lemma inverseAdd_cstep L s x o id s' : inverseAdd M s x o id = Some s' ->
    (forall f, 0 <= id -> feature_at M x id = Some f -> isContainer M f = true -> In (x, o) L) ->
    (id < 0 -> In (x, o) L) -> cstep L s s'.
  Proof.
    unfold inverseAdd. intros E H1 H2. destruct (Z.geb_spec id 0) as [H0|H0].
    - unfold basicInverseAdd in E. destruct (feature_at M x id) as [f|] eqn:Ef; [|discriminate]. cbn [obind] in E.
      destruct (f_many M f); [injection E as <-; now apply cstep_same|].
      destruct (isContainer M f) eqn:Ec.
      + destruct (removeFromContainer M s x) as [s1|] eqn:E1; [|discriminate]. cbn [obind] in E.
        eapply cstep_trans; [eapply removeFromContainer_cstep; eassumption|].
        eapply basicSetContainer_cstep; [eassumption|]. intros p Ep. injection Ep as <-. eapply H1; eauto. 
      + assert (Hd : exists s1, cstep L s s1 /\ s' = setSlot s1 x f [o]).
        { destruct (slot s x f) as [|y l]; [injection E as <-; eauto using cstep_refl|].
          destruct (f_cont M f).
          - destruct (inverseRemove M s y x _) as [s1|] eqn:E1; [|discriminate]. injection E as <-.
            eauto using inverseRemove_cstep.
          - destruct (f_opp M f).
            + destruct (inverseRemove M s y x _) as [s1|] eqn:E1; [|discriminate]. injection E as <-.
              eauto using inverseRemove_cstep.
            + injection E as <-. eauto using cstep_refl. }
        destruct Hd as (s1 & Hs1 & ->). eapply cstep_trans; [eassumption|]. now apply cstep_same.
    - destruct (removeFromContainer M s x) as [s1|] eqn:E1; [|discriminate]. cbn [obind] in E.
      eapply cstep_trans; [eapply removeFromContainer_cstep; eassumption|].
      eapply basicSetContainer_cstep; [eassumption|]. intros p Ep. injection Ep as <-. apply H2. lia.
  Qed.

  Lemma listInverseRemove_cstep L s o f x s' : listInverseRemove M s o f x = Some s' -> cstep L s s'.
  Proof.
    unfold listInverseRemove. destruct (f_opp M f); [apply inverseRemove_cstep|].
    destruct (f_cont M f); [apply inverseRemove_cstep|]. intro E. injection E as <-. apply cstep_refl.
  Qed.
  Lemma listInverseAdd_cstep L s o f x s' : listInverseAdd M s o f x = Some s' -> link_typed M o f x ->
    (f_cont M f = true -> In (x, o) L) -> cstep L s s'.
  Proof.
    unfold listInverseAdd. intros E [Hf Ht] HL. destruct (f_opp M f) as [g|] eqn:Eg.
    - destruct (feat M W _ _ (Ht g eq_refl)) as (Hat & _ & H0).
      eapply inverseAdd_cstep; [eassumption| |lia].
      intros k _ Hk Hc. rewrite Hat in Hk. injection Hk as <-. apply HL.
      unfold isContainer in Hc. destruct (wf_opp M W f g Eg) as [Eg' _]. rewrite Eg' in Hc. exact Hc.
    - destruct (f_cont M f); [|injection E as <-; apply cstep_refl].
      destruct (feat M W _ _ Hf) as (_ & _ & H0).
      eapply inverseAdd_cstep; [eassumption| |auto]. unfold BASE. lia.
  Qed.

  Lemma foldM_cstep L g l : (forall s x s', In x l -> g s x = Some s' -> cstep L s s') ->
    forall s s', foldM g l s = Some s' -> cstep L s s'.
  Proof.
    induction l as [|x l IH]; intros H s s' E; cbn [foldM] in E; [injection E as <-; apply cstep_refl|].
    destruct (g s x) as [s1|] eqn:E1; [|discriminate]. cbn [obind] in E.
    apply (cstep_trans L s s1); [exact (H s x s1 (or_introl eq_refl) E1)|].
    apply IH; [|assumption]. intros a y b Hy. apply H. now right.
  Qed.

  Lemma eSetResource_cstep L s x r s' : eSetResource M s x r = Some s' -> cstep L s s'.
  Proof.
    unfold eSetResource. intro E.
    destruct (match internalResource s x, r with Some q, Some _ => contentsRemove s q x | _, _ => Some s end) as [s1|] eqn:E1;
      [|discriminate]. cbn [obind] in E.
    assert (H1 : container s1 = container s).
    { destruct (internalResource s x), r; try (injection E1 as <-; reflexivity).
      eapply contentsRemove_container; eassumption. }
    match type of E with (let? s2 := ?m in _) = _ => destruct m as [s2|] eqn:E2 end; [|discriminate].
    cbn [obind] in E. injection E as <-.
    apply (cstep_trans _ _ s1); [now apply cstep_same|].
    apply (cstep_trans _ _ s2); [|now apply cstep_same].
    destruct (container s1 x) as [c|]; [|injection E2 as <-; apply cstep_refl].
    destruct (eContainmentFeature M x c _) as [f|]; [|discriminate]. cbn [obind] in E2.
    destruct (f_resolve M f); [injection E2 as <-; apply cstep_refl|].
    destruct (removeFromContainer M s1 x) as [s3|] eqn:E3; [|discriminate]. cbn [obind] in E2.
    eapply cstep_trans; [eapply removeFromContainer_cstep|eapply unset_cstep]; eassumption.
  Qed.

  Lemma when_cstep L v s g s' : when v s g = Some s' -> (forall x, v = Some x -> g x = Some s' -> cstep L s s') ->
    cstep L s s'.
  Proof. unfold when. destruct v; [eauto|]. intros E _. injection E as <-. apply cstep_refl. Qed.

  (** the containment links a call asks for *)
  Definition asked (p : gop) : list (obj * obj) :=
    match p with
    | OSet o f (Some v) => (if f_cont M f then [(v, o)] else []) ++ (if isContainer M f then [(o, v)] else [])
    | OList o f p => if f_cont M f then map (fun x => (x, o)) (op_args p) else []
    | _ => []
    end.

  Lemma gstep_cstep s p s' : GInv M s -> RInv M s -> legal M s p -> gstep M s p = Some s' -> cstep (asked p) s s'.
  Proof.
    intros G R Lg E. destruct p as [o f v|o f|o f p|r p|r]; cbn [gstep] in E.
    - destruct Lg as (Hm & Hf & Ht). rewrite (accessed_own M W) in E by assumption. cbn [obind] in E.
      unfold eSet in E. destruct (isContainer M f) eqn:Ec.
      + cbv zeta in E. match type of E with (if ?b then _ else _) = _ => destruct b end; [|injection E as <-; apply cstep_refl].
        destruct (when (container s o) s _) as [s1|] eqn:E1; [|discriminate]. cbn [obind] in E.
        match type of E with (let? s2 := ?m in _) = _ => destruct m as [s2|] eqn:E2 end; [|discriminate]. cbn [obind] in E.
        eapply cstep_trans; [eapply when_cstep; [exact E1|cbv beta; intros ? ? Hw; exact (removeFromContainer_cstep _ _ _ _ Hw)]|].
        eapply cstep_trans.
        * eapply when_cstep; [exact E2|]. intros c -> H. destruct (f_opp M f) as [g|] eqn:Eg; [|discriminate].
          cbn [obind] in H. destruct (Ht c eq_refl) as [_ T]. destruct (feat M W _ _ (T g Eg)) as (Hat & Hid & H0).
          rewrite Hid in H. eapply inverseAdd_cstep; [eassumption| |lia].
          intros k _ Hk Hc. rewrite Hat in Hk. injection Hk as <-.
          unfold isContainer in Ec. rewrite Eg in Ec. rewrite (cont_not_container M W g Ec) in Hc. discriminate.
        * eapply basicSetContainer_cstep; [exact E|]. intros p ->. cbn. rewrite Ec. apply in_app_iff. right. now left.
      + destruct (isBidirectional M f || f_cont M f) eqn:Eb; [|injection E as <-; now apply cstep_same].
        cbv zeta in E. destruct (some_eqb _ v); [injection E as <-; apply cstep_refl|].
        match type of E with (let? s2 := ?m in _) = _ => destruct m as [s2|] eqn:E2 end; [|discriminate].
        cbn [obind] in E. injection E as <-.
        apply (cstep_trans _ _ s2); [|now apply cstep_same].
        destruct (f_opp M f) as [g|] eqn:Eg.
        * destruct (when _ s _) as [s1|] eqn:E1; [|discriminate]. cbn [obind] in E2.
          eapply cstep_trans; [eapply when_cstep; [exact E1|cbv beta; intros ? ? Hw; exact (inverseRemove_cstep _ _ _ _ _ _ Hw)]|].
          eapply when_cstep; [exact E2|]. intros x -> H. destruct (Ht x eq_refl) as [T1 T2].
          destruct (feat M W _ _ (T2 g Eg)) as (Hat & Hid & H0). rewrite Hid in H.
          eapply (listInverseAdd_cstep _ s1 o f x); [unfold listInverseAdd; rewrite Eg; exact H|now split|].
          intro Hc. cbn. rewrite Hc. now left.
        * unfold isBidirectional in Eb. rewrite Eg in Eb. cbn in Eb.
          destruct (when _ s _) as [s1|] eqn:E1; [|discriminate]. cbn [obind] in E2.
          eapply cstep_trans; [eapply when_cstep; [exact E1|cbv beta; intros ? ? Hw; exact (inverseRemove_cstep _ _ _ _ _ _ Hw)]|].
          eapply when_cstep; [exact E2|]. intros x -> H. destruct (Ht x eq_refl) as [T1 T2].
          destruct (feat M W _ _ T1) as (_ & Hid & H0). rewrite Hid in H.
          eapply (listInverseAdd_cstep _ s1 o f x); [unfold listInverseAdd; rewrite Eg, Eb; exact H|now split|].
          intros _. cbn. rewrite Eb. now left.
    - destruct Lg as (Hf & _). rewrite (accessed_own M W) in E by assumption. cbn [obind] in E.
      unfold eUnset in E. destruct (isContainer M f).
      + destruct (container s o); [|injection E as <-; apply cstep_refl].
        destruct (removeFromContainer M s o) as [s1|] eqn:E1; [|discriminate]. cbn [obind] in E.
        eapply cstep_trans; [eapply removeFromContainer_cstep|eapply unset_cstep]; eassumption.
      + destruct (_ || _); [|injection E as <-; now apply cstep_same]. cbv zeta in E.
        match type of E with (let? s1 := ?m in _) = _ => destruct m as [s1|] eqn:E1 end; [|discriminate].
        cbn [obind] in E. injection E as <-. apply (cstep_trans _ _ s1); [|now apply cstep_same].
        eapply when_cstep; [exact E1|]. intros x _ H. destruct (f_opp M f); eapply inverseRemove_cstep; eassumption.
    - destruct Lg as (Hm & Hf & Hok & Ha). rewrite (accessed_own M W) in E by assumption. cbn [obind] in E.
      unfold listOp in E. destruct (list_effect (slot s o f) p) as [[[st Rm] A]|] eqn:El; [|discriminate].
      cbn [obind] in E. apply list_effect_good in El as [(_ & _ & _ & Hd & Harg) _]; [|apply (g_nodup M s G)|assumption].
      match type of E with (let? s1 := ?m in _) = _ => destruct m as [s1|] eqn:E1 end; [|discriminate]. cbn [obind] in E.
      apply (cstep_trans _ _ (setSlot s o f (final (slot s o f) st))); [now apply cstep_same|].
      eapply cstep_trans; [eapply foldM_cstep; [|exact E1]; cbv beta; intros ? ? ? ? Hw; exact (listInverseRemove_cstep _ _ _ _ _ _ Hw)|].
      eapply foldM_cstep; [|exact E]. cbv beta. intros s0 x s0' Hx H0.
      destruct (Harg x Hx) as [Hx'|Hx']; [|destruct (Hd x Hx Hx')].
      eapply listInverseAdd_cstep; [eassumption|now apply Ha|]. intro Hc. cbn [asked]. rewrite Hc. now apply in_map with (f := fun x => (x, o)).
    - unfold contentsOp in E. destruct (list_effect _ p) as [[[st Rm] A]|]; [|discriminate]. cbn [obind] in E.
      match type of E with (let? s1 := ?m in _) = _ => destruct m as [s1|] eqn:E1 end; [|discriminate]. cbn [obind] in E.
      apply (cstep_trans _ _ (contentsStages s r st)); [apply cstep_same, contentsStages_container|].
      eapply cstep_trans; [eapply foldM_cstep; [|exact E1]|eapply foldM_cstep; [|exact E]];
        cbv beta; intros ? ? ? ? Hw; exact (eSetResource_cstep _ _ _ _ _ Hw).
    - destruct Lg.
  Qed.

  Lemma above_trans s a b c : above s a b -> above s b c -> above s a c.
  Proof. intros H1 H2. induction H2; [eapply above_step|eapply above_step]; eauto. Qed.

  (** adding links below o only *)
  Lemma acyclic_cstep L s s' o : acyclic s -> cstep L s s' ->
    (forall y p, In (y, p) L -> p = o /\ may_contain s o y) -> acyclic s'.
  Proof.
    intros Ha Hc HL.
    (* going up from o stays in the old graph *)
    assert (Hup : forall d x, above s' d x -> x = o \/ above s x o -> above s d x).
    { intros d x H. induction H as [c x H|c d x H H' IH]; intro Hx.
      - destruct (Hc x) as [E|[E|(p & E & Hp)]]; [|congruence|].
        + apply above_direct. congruence.
        + destruct (HL _ _ Hp) as [-> [H1 H2]]. destruct Hx; contradiction.
      - destruct (Hc x) as [E|[E|(p & E & Hp)]]; [|congruence|].
        + rewrite H in E. eapply above_step; [symmetry; exact E|]. apply IH. right.
          destruct Hx as [->|Hx]; [now apply above_direct|]. eapply above_trans; [|exact Hx]. now apply above_direct.
        + destruct (HL _ _ Hp) as [-> [H1 H2]]. destruct Hx; contradiction. }
    (* a path either is old or goes through o *)
    assert (Hpath : forall d x, above s' d x -> above s d x \/ (d = o \/ above s' d o) /\ above s' o x).
    { intros d x H. induction H as [c x H|c d x H H' IH].
      - destruct (Hc x) as [E|[E|(p & E & Hp)]]; [|congruence|].
        + left. apply above_direct. congruence.
        + destruct (HL _ _ Hp) as [-> _]. right. assert (c = o) by congruence. subst. split; [tauto|]. now apply above_direct.
      - destruct (Hc x) as [E|[E|(p & E & Hp)]]; [|congruence|].
        + rewrite H in E. destruct IH as [IH|[I1 I2]].
          * left. eapply above_step; [symmetry; exact E|assumption].
          * right. split; [assumption|]. eapply above_step; eassumption.
        + destruct (HL _ _ Hp) as [-> _]. assert (c = o) by congruence. subst. right.
          split; [now right|]. now apply above_direct. }
    intros x Hx. destruct (Hpath x x Hx) as [H|[[->|H1] H2]].
    - exact (Ha x H).
    - apply (Ha o). apply Hup; [assumption|now left].
    - apply (Ha o). apply Hup; [eapply above_trans; eassumption|now left].
  Qed.

  Lemma asked_safe s p : safe_call M s p -> exists o, forall y c, In (y, c) (asked p) -> c = o /\ may_contain s o y.
  Proof.
    destruct p as [o f [v|]|o f|o f p|r p|r]; cbn; try (exists 0%nat; intros ? ? []).
    - intros [H1 H2]. destruct (f_cont M f) eqn:Ef.
      + rewrite (cont_not_container M W f Ef) in *. exists o. intros y c [E|[]]. injection E as <- <-. auto.
      + destruct (isContainer M f); [|exists 0%nat; intros ? ? []].
        exists v. intros y c [E|[]]. injection E as <- <-. auto.
    - intros H. destruct (f_cont M f); [|exists 0%nat; intros ? ? []].
      exists o. intros y c Hin. apply in_map_iff in Hin as (x & E & Hx). injection E as <- <-. auto.
  Qed.

  Lemma safe_reachable s : reachable_safe M s -> reachable M s.
  Proof. induction 1; [constructor|econstructor; eassumption]. Qed.

  Lemma reachable_acyclic s : reachable_safe M s -> acyclic s.
  Proof.
    induction 1 as [|s p s' Hs IH Lg Sc E].
    - intros x H. remember x as y in H at 1. clear Heqy. induction H; cbn in *; discriminate.
    - destruct (reachable_ok M W s (safe_reachable s Hs)) as [G R].
      destruct (asked_safe s p Sc) as [o Ho].
      eapply acyclic_cstep; [exact IH|eapply gstep_cstep; eassumption|exact Ho].
  Qed.

  (** EResource terminates on acyclic reachable states *)
  Lemma finite_containers s : reachable M s -> exists D, forall x, container s x <> None -> In x D.
  Proof.
    induction 1 as [|s p s' Hs [D HD] Lg E].
    - exists []. cbn. tauto.
    - destruct (reachable_ok M W s Hs) as [G R]. pose proof (gstep_cstep s p s' G R Lg E) as Hc.
      exists (map fst (asked p) ++ D). intros x Hx. apply in_app_iff.
      destruct (Hc x) as [E'|[E'|(q & E' & Hp)]]; [|contradiction|].
      + right. apply HD. congruence.
      + left. apply in_map_iff. exists (x, q). auto.
  Qed.

  Lemma eResource_ends s D : acyclic s -> (forall x, container s x <> None -> In x D) ->
    forall n vs x, NoDup vs -> incl vs D -> (forall v, In v vs -> above s x v) ->
      (length D < n + length vs)%nat -> eResource n s x <> None.
  Proof.
    intros Ha HD. induction n as [|n IH]; intros vs x Hnd Hi Hab Hl.
    - pose proof (NoDup_incl_length Hnd Hi). cbn in *; lia.
    - cbn [eResource]. destruct (internalResource s x); [discriminate|].
      destruct (container s x) as [c|] eqn:Ec; [|discriminate].
      destruct (Nat.eqb_spec c x); [discriminate|].
      apply (IH (x :: vs)).
      + constructor; [|assumption]. intro Hv. exact (Ha x (Hab x Hv)).
      + intros v [<-|Hv]; [apply HD; congruence|auto].
      + intros v [<-|Hv]; [apply above_direct; exact Ec|]. eapply above_trans; [apply above_direct; exact Ec|]. auto.
      + cbn. lia.
  Qed.

  Lemma eResource_total s x : reachable_safe M s -> exists n, eResource n s x <> None.
  Proof.
    intro Hs. destruct (finite_containers s (safe_reachable s Hs)) as [D HD].
    exists (S (length D)). apply (eResource_ends s D (reachable_acyclic s Hs) HD _ []); [constructor|easy|easy|]. cbn. lia.
  Qed.

  (** * read back *)
  Lemma set_read_back s o f v s' : reachable M s -> legal M s (OSet o f v) -> gstep M s (OSet o f v) = Some s' ->
    eGet M s' o f = Some (to_list v).
  Proof.
    intros Hs Lg E. destruct (reachable_ok M W s Hs) as [G R]. destruct Lg as (Hm & Hf & Ht).
    cbn [gstep] in E. rewrite (accessed_own M W) in E by assumption. cbn [obind] in E.
    rewrite (eGet_own M W) by assumption. destruct (isContainer M f) eqn:Ec.
    - destruct (eSet_container M W s o f v G R Hf Ec Ht) as (s1 & E1 & _ & _ & C1 & C2).
      assert (s1 = s') by congruence. subst s1. rewrite C1.
      destruct v as [c|]; [|now destruct (_ =? _)]. rewrite C2 by discriminate. now rewrite Z.eqb_refl.
    - destruct (isBidirectional M f || f_cont M f) eqn:Eb.
      + destruct (eSet_inverse M W s o f v G R Hf Hm Ec Eb Ht) as (s1 & E1 & _ & _ & C1).
        assert (s1 = s') by congruence. subst s1. now rewrite C1.
      + unfold eSet in E. rewrite Ec, Eb in E. injection E as <-. now rewrite slot_eq.
  Qed.
  Lemma unset_read_back s o f s' : reachable M s -> legal M s (OUnset o f) -> gstep M s (OUnset o f) = Some s' ->
    eGet M s' o f = Some [].
  Proof.
    intros Hs Lg E. destruct (reachable_ok M W s Hs) as [G R]. destruct Lg as (Hf & Hm).
    cbn [gstep] in E. rewrite (accessed_own M W) in E by assumption. cbn [obind] in E.
    rewrite (eGet_own M W) by assumption. destruct (isContainer M f) eqn:Ec.
    - destruct (eUnset_container M W s o f G R Hf Ec) as (s1 & E1 & _ & _ & C1).
      assert (s1 = s') by congruence. subst s1. rewrite C1. now destruct (_ =? _).
    - unfold eUnset in E. rewrite Ec in E. destruct (isBidirectional M f || f_cont M f); cbv zeta in E.
      + match type of E with (let? s1 := ?m in _) = _ => destruct m as [s1|] end; [|discriminate].
        cbn [obind] in E. injection E as <-. now rewrite slot_eq.
      + injection E as <-. now rewrite slot_eq.
  Qed.
  Lemma list_read_back s o f p s' : reachable M s -> legal M s (OList o f p) -> gstep M s (OList o f p) = Some s' ->
    exists l r, eGet M s o f = Some l /\ spec_step Nat.eqb true l p = Some r /\ eGet M s' o f = Some (fst r).
  Proof.
    intros Hs Lg E. destruct (reachable_ok M W s Hs) as [G R]. pose proof Lg as (Hm & Hf & Hok & _).
    cbn [gstep] in E. rewrite (accessed_own M W) in E by assumption. cbn [obind] in E.
    rewrite !(eGet_own M W) by assumption. rewrite (many_not_container M W f Hm).
    pose proof (listOp_ok M W s o f p G R Lg) as H. pose proof (list_effect_total (slot s o f) p Hok) as T.
    destruct (list_effect (slot s o f) p) as [[[st Rm] A]|]; [|congruence].
    destruct H as (s1 & E1 & _ & _ & C1). assert (s1 = s') by congruence. subst s1.
    destruct (spec_step Nat.eqb true (slot s o f) p) as [[d r]|] eqn:Es; [|destruct T].
    exists (slot s o f), (d, r). split; [reflexivity|]. split; [assumption|]. cbn. congruence.
  Qed.
  Lemma contents_read_back s r p s' : reachable M s -> legal M s (OContents r p) -> gstep M s (OContents r p) = Some s' ->
    exists q, spec_step Nat.eqb true (contents s r) p = Some q /\ contents s' r = fst q.
  Proof.
    intros Hs Lg E. destruct (reachable_ok M W s Hs) as [G R].
    pose proof (contentsOp_ok M W s r p G R Lg) as H. pose proof (list_effect_total (contents s r) p Lg) as T.
    cbn [gstep] in E.
    destruct (list_effect (contents s r) p) as [[[st Rm] A]|]; [|congruence].
    destruct H as (s1 & E1 & _ & _ & C1). assert (s1 = s') by congruence. subst s1.
    destruct (spec_step Nat.eqb true (contents s r) p) as [[d q]|] eqn:Es; [|destruct T].
    exists (d, q). split; [reflexivity|]. cbn. congruence.
  Qed.

  Lemma panic_iff_index_error s p : reachable M s -> legal M s p -> (gstep M s p = None <-> index_error s p).
  Proof.
    intros Hs Lg. destruct (reachable_ok M W s Hs) as [G R].
    destruct (gstep_ok M W s p G R Lg) as [[-> H]|(s' & -> & H & _)]; [tauto|]. split; [discriminate|contradiction].
  Qed.

  (** * EContainmentFeature and Remove *)
  Lemma containment_feature_uni s x : reachable M s ->
    (forall f, eContainingFeature M s x = Some f -> f_opp M f = None) -> containment_feature_right M s x.
  Proof.
    intros Hs Hu c Hc. destruct (reachable_ok M W s Hs) as [G R].
    destruct (g_ex M s G x c Hc) as (f & Hf & Hx).
    destruct (containing_of_slot M W s c f x G Hf Hx) as [_ E]. specialize (Hu f E).
    exists f. split; [|split; [assumption|apply (holds_slot M W); auto using cont_not_container]].
    unfold containmentFeature. rewrite Hc. destruct (g_cont M s G _ _ _ Hf Hx) as [_ ->].
    unfold code. rewrite Hu. unfold eContainmentFeature, BASE.
    destruct (g_typed M s G _ _ _ Hx) as [[T _] _]. destruct (feat M W _ _ T) as (Hat & _ & H0).
    destruct (Z.leb_spec (-1 - f_id M f) (-1)); [|lia].
    replace (-1 - (-1 - f_id M f)) with (f_id M f) by lia. assumption.
  Qed.

  Lemma list_effect_remove data x : NoDup data -> In x data -> exists cb,
    list_effect data (Remove x) = Some ([(rm x data, cb)], [x], []).
  Proof.
    intros Hnd Hx. destruct (removeWithNotification_ok data x Hnd) as (cb & E & Hcb & _).
    destruct (Hcb Hx) as [i ->]. unfold removeWithNotification in E. cbn [list_effect].
    cbv zeta in *. destruct (indexOf Nat.eqb data x =? -1); [discriminate|].
    destruct (doRemove 0%nat data (indexOf Nat.eqb data x)) as [[[d y] cb]|] eqn:Ed; [|discriminate].
    cbn [obind] in *. injection E as -> ->. apply doRemove_some in Ed as (_ & _ & E & _). injection E as _ <-. eauto.
  Qed.

  Lemma remove_total s p : GInv M s -> RInv M s -> legal M s p -> ~ index_error s p ->
    exists s', gstep M s p = Some s' /\ GInv M s' /\ RInv M s'.
  Proof.
    intros G R Lg Hn. destruct (gstep_ok M W s p G R Lg) as [[_ H]|(s' & E & _ & H)]; [contradiction|eauto].
  Qed.

  Lemma removeObject_ok s x : reachable M s ->
    (forall f, eContainingFeature M s x = Some f -> f_opp M f = None) ->
    exists s', removeObject M s x = Some s' /\ GInv M s' /\ RInv M s' /\ detached M s' x.
  Proof.
    intros Hs Hu. destruct (reachable_ok M W s Hs) as [G R]. pose proof (containment_feature_uni s x Hs Hu) as Hcf.
    unfold removeObject.
    assert (H1 : exists s1, match container s x with
              | Some c => let? f := containmentFeature M s x in
                          if f_many M f then gstep M s (OList c f (Remove x)) else gstep M s (OUnset c f)
              | None => Some s end = Some s1 /\ GInv M s1 /\ RInv M s1 /\ container s1 x = None).
    { destruct (container s x) as [c|] eqn:Ec; [|eauto 6].
      destruct (Hcf c Ec) as (f & -> & Hf & Hh). cbn [obind].
      apply (holds_slot M W s c f x (cont_not_container M W f Hf) G) in Hh.
      destruct (containing_of_slot M W s c f x G Hf Hh) as [_ E]. specialize (Hu f E).
      destruct (g_typed M s G _ _ _ Hh) as [[T _] _].
      destruct (feat M W _ _ T) as (_ & Hid & H0).
      assert (Hinv : forall s0, inverseRemove M s0 x c (BASE - f_id M f) = Some (setContainer s0 x None (BASE - f_id M f))).
      { intro s0. unfold inverseRemove. destruct (Z.geb_spec (BASE - f_id M f) 0); [unfold BASE in *; lia|].
        apply basicSetContainer_none. }
      destruct (f_many M f) eqn:Em.
      - destruct (remove_total s (OList c f (Remove x)) G R) as (s1 & E1 & G1 & R1).
        { split; [assumption|]. split; [assumption|]. split; [exact I|]. intros ? []. }
        { cbn. destruct (first_pos Nat.eqb (slot s c f) x); discriminate. }
        exists s1. split; [assumption|]. split; [assumption|]. split; [assumption|].
        cbn [gstep] in E1. rewrite (accessed_own M W) in E1 by assumption. cbn [obind] in E1. unfold listOp in E1.
        destruct (list_effect_remove (slot s c f) x (g_nodup M s G c f) Hh) as [cb Ecb]. rewrite Ecb in E1.
        cbn [obind foldM] in E1. unfold listInverseRemove in E1. rewrite Hu, Hf, Hinv in E1. cbn [obind] in E1.
        injection E1 as <-. cbn. apply upd_eq.
      - destruct (remove_total s (OUnset c f) G R) as (s1 & E1 & G1 & R1).
        { cbn. split; [assumption|]. congruence. }
        { cbn. tauto. }
        exists s1. split; [assumption|]. split; [assumption|]. split; [assumption|].
        cbn [gstep] in E1. rewrite (accessed_own M W) in E1 by assumption. cbn [obind] in E1. unfold eUnset in E1.
        rewrite (cont_not_container M W f Hf), Hf, orb_true_r, Em, Hu, Hid in E1. cbv zeta in E1.
        pose proof (g_single M s G c f Em) as Hl. destruct (slot s c f) as [|y [|z l]]; [destruct Hh| |cbn in Hl; lia].
        destruct Hh as [->|[]]. cbn [hd_error when obind] in E1. rewrite Hinv in E1. cbn [obind] in E1.
        injection E1 as <-. cbn. apply upd_eq. }
    destruct H1 as (s1 & -> & G1 & R1 & C1). cbn [obind].
    assert (H2 : exists s', match internalResource s1 x with
                       | Some r => contentsOp M s1 r (Remove x) | None => Some s1 end = Some s'
                /\ GInv M s' /\ RInv M s' /\ container s' x = None /\ internalResource s' x = None).
    { destruct (internalResource s1 x) as [r|] eqn:Er; [|eauto 7].
      pose proof R1 as (I1 & I2 & _). assert (Hin : In x (contents s1 r)) by now apply I1.
      destruct (remove_total s1 (OContents r (Remove x)) G1 R1) as (s2 & E2 & G2 & R2).
      { cbn. auto. }
      { cbn. destruct (first_pos Nat.eqb (contents s1 r) x); discriminate. }
      exists s2. split; [exact E2|]. split; [assumption|]. split; [assumption|].
      cbn [gstep] in E2. unfold contentsOp in E2.
      destruct (list_effect_remove (contents s1 r) x (I2 r) Hin) as [cb Ecb]. rewrite Ecb in E2.
      cbn [obind foldM] in E2. unfold eSetResource in E2.
      assert (Hc : container (contentsStages s1 r [(rm x (contents s1 r), cb)]) x = None)
        by now rewrite contentsStages_container.
      destruct (internalResource (contentsStages s1 r [(rm x (contents s1 r), cb)]) x);
        cbn [obind] in E2; rewrite Hc in E2; cbn [obind] in E2; injection E2 as <-;
        (split; [exact Hc|cbn; apply upd_eq]). }
    destruct H2 as (s' & -> & G' & R' & C' & I'). exists s'. split; [reflexivity|]. split; [assumption|]. split; [assumption|].
    split; [assumption|]. split; [assumption|]. split.
    - intros c f Hf Hh. apply (holds_slot M W s' c f x (cont_not_container M W f Hf) G') in Hh.
      destruct (g_cont M s' G' _ _ _ Hf Hh). congruence.
    - intros r Hin. apply R' in Hin. congruence.
  Qed.
End Acyclic.
