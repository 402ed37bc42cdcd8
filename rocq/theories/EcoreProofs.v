(** The generated classes do what the dynamic objects of the same metamodel do. *)
From Verif Require Import Base ListModel ListSpec GraphModel GraphSpec GraphProofs GraphInv GraphSteps
  EcoreSyntax EcoreTables EcoreModel EcoreSpec EcoreChecks.

Lemma remove_check c f : In f (features_at c) -> removable f = true ->
  remove_of c (i_id f) = Found (expected_remove f).
Proof.
  intros Hf Hr. pose proof (everywhere_at _ _ _ removes_checked Hf) as H. unfold check_remove in H.
  rewrite Hr in H. exact (is_true _ _ H).
Qed.
Lemma add_check c f : In f (features_at c) -> i_bidirectional f = true ->
  add_of c (i_id f) = Found (expected_add f) /\ (i_many f || i_container f || i_cont f) = true
  /\ is_reference f = true /\ f <> details.
Proof.
  intros Hf Hr. pose proof (everywhere_at _ _ _ adds_checked Hf) as H. unfold check_add in H.
  rewrite Hr in H. apply andb_prop in H as [H H4]. apply andb_prop in H as [H H3]. apply andb_prop in H as [H1 H2].
  apply negb_true_iff, Nat.eqb_neq in H4. apply is_true in H1. auto.
Qed.
Lemma bidirectional_removable c f : In f (features_at c) -> i_bidirectional f = true -> removable f = true.
Proof.
  intros Hf Hb. destruct (add_check c f Hf Hb) as (_ & _ & Hr & Hd). unfold removable, i_linked.
  rewrite Hb, Hr. cbn. apply negb_true_iff. now apply Nat.eqb_neq.
Qed.

Section Refine.
  Context (classOf : obj -> nat).
  Notation M := (ecore classOf).
  Let W : wf_metamodel M := wf_ecore classOf.

  Definition invok (c : obj) (id : Z) : Prop := exists f, In f (features M c) /\ id = f_id M f /\ removable f = true.
  Definition link_ok (x c : obj) (id : Z) : Prop :=
    if id >=? 0 then forall g f, feature_at M x id = Some g -> f_opp M g = Some f -> invok c (f_id M f)
    else invok c (BASE - id).
  Definition WF (s : state) : Prop :=
    (forall x c, container s x = Some c -> link_ok x c (containerFeatureID s x)) /\ (forall o, slot s o details = []).

  Lemma bid_some f g : f_opp M f = Some g -> i_bidirectional f = true.
  Proof. intro E. unfold i_bidirectional. change (i_opp f) with (f_opp M f). now rewrite E. Qed.
  Lemma opp_invok o f g : In f (features M o) -> f_opp M f = Some g -> invok o (f_id M f).
  Proof.
    intros Hf E. exists f. split; [exact Hf|]. split; [reflexivity|].
    exact (bidirectional_removable (classOf o) f Hf (bid_some _ _ E)).
  Qed.

  (** ** the invariant through the elementary changes *)
  Lemma WF_slot s o f l : WF s -> f <> details -> WF (setSlot s o f l).
  Proof.
    intros [H1 H2] Hf. split; [exact H1|]. intro a. rewrite slot_ne; [apply H2|]. right. congruence.
  Qed.
  Lemma WF_ext s s' : WF s -> container s' = container s -> containerFeatureID s' = containerFeatureID s ->
    slot s' = slot s -> WF s'.
  Proof. intros [H1 H2] E1 E2 E3. split; [rewrite E1, E2|rewrite E3]; assumption. Qed.
  Lemma WF_container s x c id : WF s -> (forall c', c = Some c' -> link_ok x c' id) -> WF (setContainer s x c id).
  Proof.
    intros [H1 H2] Hc. split; [|exact H2]. intros y d. cbn [container containerFeatureID setContainer].
    unfold upd. destruct (Nat.eqb_spec y x) as [->|]; [apply Hc|apply H1].
  Qed.
  Lemma contentsRemove_frame s r x s' : contentsRemove s r x = Some s' ->
    container s' = container s /\ containerFeatureID s' = containerFeatureID s /\ slot s' = slot s.
  Proof.
    unfold contentsRemove. destruct (removeWithNotification (contents s r) x) as [[l cb]|]; [|discriminate].
    cbn [obind]. intro H. injection H as <-. destruct (contentsStages_frame r (match cb with [] => [] | _ => [(l, cb)] end) s)
      as (E1 & E2 & _ & E4 & _). auto.
  Qed.
  Lemma WF_basicSet s x c id s' : WF s -> (forall c', c = Some c' -> link_ok x c' id) ->
    basicSetContainer M s x c id = Some s' -> WF s'.
  Proof.
    intros Hs Hc. unfold basicSetContainer.
    destruct (internalResource s x) as [r|]; [|cbn [obind]; intro H; injection H as <-; now apply WF_container].
    destruct c as [c|]; [|cbn [obind]; intro H; injection H as <-; now apply WF_container].
    destruct (eContainmentFeature M x c id) as [f|]; [|discriminate]. cbn [obind].
    destruct (negb (f_resolve M f)); [|cbn [obind]; intro H; injection H as <-; now apply WF_container].
    destruct (contentsRemove s r x) as [s1|] eqn:E; [|discriminate]. cbn [obind].
    apply contentsRemove_frame in E as (E1 & E2 & E3).
    intro H. injection H as <-. apply WF_container; [|assumption]. now apply (WF_ext s).
  Qed.

  (** ** inverse removals *)
  Lemma genBasicInverseRemove_eq s x other f : In f (features M x) -> removable f = true ->
    genBasicInverseRemove classOf s x other (f_id M f) = basicInverseRemove M s x other (f_id M f)
    /\ (WF s -> forall s', basicInverseRemove M s x other (f_id M f) = Some s' -> WF s').
  Proof.
    intros Hf Hr. destruct (feat M W x f Hf) as (Hat & Hid & H0).
    unfold genBasicInverseRemove, basicInverseRemove. rewrite Hat. cbn [obind]. rewrite Hid.
    change (f_id M f) with (i_id f). rewrite (remove_check (classOf x) f Hf Hr).
    assert (Hd : f <> details).
    { unfold removable in Hr. apply andb_prop in Hr as [_ Hr]. apply negb_true_iff, Nat.eqb_neq in Hr. exact Hr. }
    unfold expected_remove. change (f_many M f) with (i_many f). change (isContainer M f) with (i_container f).
    destruct (i_many f).
    - split; [reflexivity|]. intros Hs s'. destruct (removeWithNotification (slot s x f) other) as [[l cb]|]; [|discriminate].
      cbn [obind]. intro H. injection H as <-. now apply WF_slot.
    - destruct (i_container f).
      + split; [reflexivity|]. intros Hs s'. apply WF_basicSet; [assumption|discriminate].
      + split; [reflexivity|]. intros Hs s' H. injection H as <-. now apply WF_slot.
  Qed.
  Lemma genInverseRemove_eq s x other id : (id >=? 0 = true -> invok x id) ->
    genInverseRemove classOf s x other id = inverseRemove M s x other id
    /\ (WF s -> forall s', inverseRemove M s x other id = Some s' -> WF s').
  Proof.
    intro Hi. unfold genInverseRemove, inverseRemove. destruct (id >=? 0) eqn:E.
    - destruct (Hi eq_refl) as (f & Hf & -> & Hr). now apply genBasicInverseRemove_eq.
    - split; [reflexivity|]. intros Hs s'. apply WF_basicSet; [assumption|discriminate].
  Qed.
  Lemma genRemoveFromContainer_eq s x : WF s ->
    genRemoveFromContainer classOf s x = removeFromContainer M s x
    /\ forall s', removeFromContainer M s x = Some s' -> WF s'.
  Proof.
    intros Hs. unfold genRemoveFromContainer, removeFromContainer.
    destruct (container s x) as [c|] eqn:Ec; [|split; [reflexivity|intros s' H; injection H as <-; exact Hs]].
    pose proof (proj1 Hs x c Ec) as Hl. unfold link_ok in Hl.
    destruct (containerFeatureID s x >=? 0) eqn:Ei.
    - destruct (feature_at M x (containerFeatureID s x)) as [g|] eqn:Eg;
        [|split; [reflexivity|intros s' H; injection H as <-; exact Hs]].
      destruct (f_opp M g) as [f|] eqn:Ef; [|split; [reflexivity|intros s' H; injection H as <-; exact Hs]].
      destruct (genInverseRemove_eq s c x (f_id M f)) as [H1 H2]; [intros _; exact (Hl g f eq_refl Ef)|].
      split; [exact H1|exact (H2 Hs)].
    - destruct (genInverseRemove_eq s c x (BASE - containerFeatureID s x)) as [H1 H2]; [intros _; exact Hl|].
      split; [exact H1|exact (H2 Hs)].
  Qed.

  (** ** inverse additions *)
  Definition addok (x other : obj) (id : Z) : Prop :=
    if id >=? 0 then exists f g, In f (features M x) /\ f_opp M f = Some g /\ id = f_id M f /\ invok other (f_id M g)
    else invok other (BASE - id).
  Lemma addok_link x other f g : In f (features M x) -> f_opp M f = Some g -> invok other (f_id M g) ->
    link_ok x other (f_id M f).
  Proof.
    intros Hf E Ho. destruct (feat M W x f Hf) as (Hat & _ & H0). unfold link_ok.
    destruct (Z.geb_spec (f_id M f) 0); [|lia]. intros g' f' Eg Ef. rewrite Hat in Eg. injection Eg as <-.
    rewrite E in Ef. injection Ef as <-. exact Ho.
  Qed.
  Lemma genBasicInverseAdd_eq s x other f g : WF s -> In f (features M x) -> f_opp M f = Some g ->
    invok other (f_id M g) ->
    genBasicInverseAdd classOf s x other (f_id M f) = basicInverseAdd M s x other (f_id M f)
    /\ forall s', basicInverseAdd M s x other (f_id M f) = Some s' -> WF s'.
  Proof.
    intros Hs Hf E Ho. destruct (feat M W x f Hf) as (Hat & Hid & H0).
    destruct (add_check (classOf x) f Hf (bid_some _ _ E)) as (Ha & Hk & _ & Hd).
    pose proof (addok_link x other f g Hf E Ho) as Hl.
    unfold genBasicInverseAdd, basicInverseAdd. rewrite Hat. cbn [obind]. rewrite Hid.
    change (f_id M f) with (i_id f) in *. rewrite Ha.
    unfold expected_add. change (f_many M f) with (i_many f). change (isContainer M f) with (i_container f).
    change (f_cont M f) with (i_cont f).
    destruct (i_many f).
    - split; [reflexivity|]. intros s'. destruct (doAdd (slot s x f) other) as [[l cb]|]; [|discriminate].
      cbn [obind]. intro H. injection H as <-. now apply WF_slot.
    - destruct (i_container f).
      + destruct (genRemoveFromContainer_eq s x Hs) as [H1 H2]. rewrite H1.
        destruct (removeFromContainer M s x) as [s1|]; [|split; [reflexivity|discriminate]]. cbn [obind].
        split; [reflexivity|]. intro s'. apply WF_basicSet; [now apply H2|]. intros c' Hc. injection Hc as <-. exact Hl.
      + cbn in Hk. rewrite Hk. destruct (slot s x f) as [|y l]; cbn [hd_error when].
        * split; [reflexivity|]. cbn [obind]. intros s' H. injection H as <-. now apply WF_slot.
        * destruct (genInverseRemove_eq s y x (BASE - i_id f)) as [H1 H2].
          { intro H. apply Z.geb_le in H. unfold BASE in H. lia. }
          rewrite H1. destruct (inverseRemove M s y x (BASE - i_id f)) as [s1|]; [|split; [reflexivity|discriminate]].
          cbn [obind doStore to_list]. split; [reflexivity|]. intros s' H. injection H as <-. apply WF_slot; auto.
  Qed.
  Lemma genInverseAdd_eq s x other id : WF s -> addok x other id ->
    genInverseAdd classOf s x other id = inverseAdd M s x other id
    /\ forall s', inverseAdd M s x other id = Some s' -> WF s'.
  Proof.
    intros Hs Ha. unfold addok in Ha. unfold genInverseAdd, inverseAdd. destruct (id >=? 0) eqn:E.
    - destruct Ha as (f & g & Hf & Ef & -> & Ho). now apply (genBasicInverseAdd_eq s x other f g).
    - destruct (genRemoveFromContainer_eq s x Hs) as [H1 H2]. rewrite H1.
      destruct (removeFromContainer M s x) as [s1|]; [|split; [reflexivity|discriminate]]. cbn [obind].
      split; [reflexivity|]. intro s'. apply WF_basicSet; [now apply H2|]. intros c' Hc. injection Hc as <-.
      unfold link_ok. now rewrite E.
  Qed.

  (** ** lists *)
  Lemma list_ok_spec f l : list_ok f l = true ->
    l_slot l = f /\ l_id l = f_id M f /\ l_containment l = f_cont M f /\ l_opposite l = i_bidirectional f
    /\ l_inverse l = i_linked f /\ (forall g, f_opp M f = Some g -> l_inverseID l = f_id M g).
  Proof.
    unfold list_ok. intro H. do 5 (apply andb_prop in H as [H ?]).
    repeat match goal with
    | H : Bool.eqb _ _ = true |- _ => apply Bool.eqb_prop in H
    | H : Nat.eqb _ _ = true |- _ => apply Nat.eqb_eq in H
    | H : (_ =? _) = true |- _ => apply Z.eqb_eq in H
    end.
    repeat (split; [assumption|]). intros g E. change (i_opp f) with (f_opp M f) in *. rewrite E in *. assumption.
  Qed.

  Definition plain_or_removable f := is_reference f = true /\ f <> details.
  Lemma linked_removable f : plain_or_removable f -> i_linked f = true -> removable f = true.
  Proof.
    intros [Hr Hd] Hl. unfold removable. rewrite Hr, Hl. cbn. apply negb_true_iff. now apply Nat.eqb_neq.
  Qed.
  (** what an element is given *)
  Definition code_of f := match f_opp M f with Some g => f_id M g | None => BASE - f_id M f end.
  Lemma code_add o f x : plain_or_removable f -> i_linked f = true -> link_typed M o f x -> addok x o (code_of f).
  Proof.
    intros Hp Hl [Hf Hg]. unfold addok, code_of. destruct (f_opp M f) as [g|] eqn:E.
    - specialize (Hg g eq_refl). destruct (feat M W x g Hg) as (_ & _ & H0).
      destruct (Z.geb_spec (f_id M g) 0); [|lia]. exists g, f. destruct (wf_opp M W f g E) as [E' _].
      split; [exact Hg|]. split; [exact E'|]. split; [reflexivity|]. now apply (opp_invok o f g).
    - destruct (feat M W o f Hf) as (_ & _ & H0). destruct (Z.geb_spec (BASE - f_id M f) 0); [unfold BASE in *; lia|].
      replace (BASE - (BASE - f_id M f)) with (f_id M f) by lia. exists f. split; [exact Hf|]. split; [reflexivity|].
      now apply linked_removable.
  Qed.
  Lemma code_remove o f x : link_typed M o f x -> (code_of f >=? 0) = true -> invok x (code_of f).
  Proof.
    intros [Hf Hg]. unfold code_of. destruct (f_opp M f) as [g|] eqn:E.
    - intros _. destruct (wf_opp M W f g E) as [E' _]. exact (opp_invok x g f (Hg g eq_refl) E').
    - destruct (feat M W o f Hf) as (_ & _ & H0). intro H. apply Z.geb_le in H. unfold BASE in H. lia.
  Qed.

  Lemma list_code f l : list_ok f l = true ->
    (if l_opposite l then l_inverseID l else BASE - l_id l) = code_of f.
  Proof.
    intro H. apply list_ok_spec in H as (_ & E2 & _ & E4 & _ & E6). rewrite E4, E2. unfold i_bidirectional, code_of.
    change (i_opp f) with (f_opp M f). destruct (f_opp M f) as [g|]; [|reflexivity]. now apply E6.
  Qed.
  Lemma linked_cases f : i_linked f = match f_opp M f with Some _ => true | None => f_cont M f end.
  Proof.
    unfold i_linked, i_bidirectional. change (i_opp f) with (f_opp M f). change (i_cont f) with (f_cont M f).
    now destruct (f_opp M f).
  Qed.
  Lemma dyn_remove s o f x : listInverseRemove M s o f x = if i_linked f then inverseRemove M s x o (code_of f) else Some s.
  Proof.
    rewrite linked_cases. unfold listInverseRemove, code_of. now destruct (f_opp M f), (f_cont M f).
  Qed.
  Lemma dyn_add s o f x : listInverseAdd M s o f x = if i_linked f then inverseAdd M s x o (code_of f) else Some s.
  Proof.
    rewrite linked_cases. unfold listInverseAdd, code_of. now destruct (f_opp M f), (f_cont M f).
  Qed.

  Lemma genListRemove_eq s o f l x : WF s -> list_ok f l = true -> link_typed M o f x ->
    genListRemove classOf s o l x = listInverseRemove M s o f x
    /\ forall s', listInverseRemove M s o f x = Some s' -> WF s'.
  Proof.
    intros Hs Hl Ht. rewrite dyn_remove. unfold genListRemove. rewrite (list_code f l Hl).
    apply list_ok_spec in Hl as (_ & _ & _ & _ & -> & _).
    destruct (i_linked f); [|split; [reflexivity|intros s' H; injection H as <-; exact Hs]].
    destruct (genInverseRemove_eq s x o (code_of f) (code_remove o f x Ht)) as [H1 H2]. auto.
  Qed.
  Lemma genListAdd_eq s o f l x : WF s -> plain_or_removable f -> list_ok f l = true -> link_typed M o f x ->
    genListAdd classOf s o l x = listInverseAdd M s o f x
    /\ forall s', listInverseAdd M s o f x = Some s' -> WF s'.
  Proof.
    intros Hs Hp Hl Ht. rewrite dyn_add. unfold genListAdd. rewrite (list_code f l Hl).
    apply list_ok_spec in Hl as (_ & _ & _ & _ & -> & _).
    destruct (i_linked f) eqn:Ek; [|split; [reflexivity|intros s' H; injection H as <-; exact Hs]].
    exact (genInverseAdd_eq s x o (code_of f) Hs (code_add o f x Hp Ek Ht)).
  Qed.

  Lemma foldM_eq (g h : state -> obj -> option state) l : forall s, WF s ->
    (forall s x, In x l -> WF s -> g s x = h s x /\ forall s', h s x = Some s' -> WF s') ->
    foldM g l s = foldM h l s /\ forall s', foldM h l s = Some s' -> WF s'.
  Proof.
    induction l as [|x l IH]; intros s Hs H; cbn [foldM].
    - split; [reflexivity|]. intros s' E. injection E as <-. exact Hs.
    - destruct (H s x (or_introl eq_refl) Hs) as [H1 H2]. rewrite H1.
      destruct (h s x) as [s1|]; [|split; [reflexivity|discriminate]]. cbn [obind].
      apply IH; [now apply H2|]. intros. apply H; [now right|assumption].
  Qed.

  Lemma genListOp_eq s o f l p : WF s -> GInv M s -> plain_or_removable f -> list_ok f l = true ->
    op_ok Nat.eqb (slot s o f) p -> (forall x, In x (op_args p) -> link_typed M o f x) ->
    genListOp classOf s o l p = listOp M s o f p /\ forall s', listOp M s o f p = Some s' -> WF s'.
  Proof.
    intros Hs G Hp Hl Hok Ht. unfold genListOp, listOp. pose proof (list_ok_spec f l Hl) as (-> & _).
    destruct (list_effect (slot s o f) p) as [[[st R] A]|] eqn:E; [|split; [reflexivity|discriminate]]. cbn [obind].
    apply list_effect_good in E as [E _]; [|apply (g_nodup M s G)|assumption].
    destruct E as (_ & Hi & _ & Hn & HA).
    assert (H0 : WF (setSlot s o f (final (slot s o f) st))) by (apply WF_slot; [exact Hs|apply Hp]).
    destruct (foldM_eq (fun s x => genListRemove classOf s o l x) (fun s x => listInverseRemove M s o f x) R _ H0) as [E1 W1].
    { intros s1 x Hx Hw. apply genListRemove_eq; [assumption..|]. apply Hi in Hx. now apply (g_typed M s G). }
    rewrite E1. destruct (foldM (fun s x => listInverseRemove M s o f x) R _) as [s1|]; [|split; [reflexivity|discriminate]].
    cbn [obind]. apply foldM_eq; [now apply W1|]. intros s2 x Hx Hw. apply genListAdd_eq; [assumption..|].
    destruct (HA x Hx) as [H|H]; [now apply Ht|]. exfalso. exact (Hn x Hx H).
  Qed.

  (** ** single references *)
  Lemma when_eq (v : option obj) s (g h : obj -> option state) : WF s ->
    (forall x, v = Some x -> g x = h x /\ forall s', h x = Some s' -> WF s') ->
    when v s g = when v s h /\ forall s', when v s h = Some s' -> WF s'.
  Proof.
    intros Hs H. destruct v as [x|]; cbn [when]; [now apply H|]. split; [reflexivity|].
    intros s' E. injection E as <-. exact Hs.
  Qed.
  Lemma code_getFeatureID o f g x : link_typed M o f x -> f_opp M f = Some g -> getFeatureID M x g = code_of f.
  Proof.
    intros [_ Hg] E. unfold code_of. rewrite E. destruct (feat M W x g (Hg g E)) as (_ & -> & _). reflexivity.
  Qed.

  Lemma doSet_eq s o f t v v' : WF s -> GInv M s -> In f (features M o) -> plain_or_removable f ->
    (forall x, v = Some x -> link_typed M o f x) -> as_type classOf t v' = v ->
    doSet classOf s o (expected_set t f) v' = eSet M s o f v /\ forall s', eSet M s o f v = Some s' -> WF s'.
  Proof.
    intros Hs G Hf Hp Ht Ev. destruct (feat M W o f Hf) as (_ & Hid & H0).
    unfold expected_set, eSet. rewrite Hid. change (isContainer M f) with (i_container f).
    destruct (i_container f) eqn:Ec; cbn [doSet]; rewrite ?Ev.
    - assert (exists g, f_opp M f = Some g) as [g Eg].
      { unfold i_container in Ec. change (i_opp f) with (f_opp M f) in Ec. destruct (f_opp M f); [eauto|discriminate]. }
      change (i_id f) with (f_id M f).
      destruct (negb (some_eqb v (container s o)) || _); [|split; [reflexivity|intros s' E; injection E as <-; exact Hs]].
      destruct (when_eq (container s o) s (fun _ => genRemoveFromContainer classOf s o) (fun _ => removeFromContainer M s o) Hs) as [E1 W1].
      { intros x _. now apply genRemoveFromContainer_eq. }
      rewrite E1. destruct (when (container s o) s (fun _ => removeFromContainer M s o)) as [s1|]; [|split; [reflexivity|discriminate]].
      cbn [obind]. specialize (W1 s1 eq_refl). rewrite Eg. cbn [obind].
      destruct (when_eq v s1 (fun c => genInverseAdd classOf s1 c o (i_code f)) (fun c => inverseAdd M s1 c o (getFeatureID M c g)) W1) as [E2 W2].
      { intros c Hc. specialize (Ht c Hc). change (i_code f) with (code_of f). rewrite (code_getFeatureID o f g c Ht Eg).
        apply genInverseAdd_eq; [exact W1|]. apply code_add; [assumption| |assumption].
        rewrite linked_cases, Eg. reflexivity. }
      rewrite E2. destruct (when v s1 (fun c => inverseAdd M s1 c o (getFeatureID M c g))) as [s2|]; [|split; [reflexivity|discriminate]].
      cbn [obind doStore]. split; [reflexivity|]. intro s'. apply WF_basicSet; [now apply W2|].
      intros c Hc. destruct (Ht c Hc) as [_ Hg]. apply (addok_link o c f g Hf Eg).
      destruct (wf_opp M W f g Eg) as [Eg' _]. exact (opp_invok c g f (Hg g Eg) Eg').
    - change (isBidirectional M f || f_cont M f) with (i_linked f).
      destruct (i_linked f) eqn:Ek; cbn [doSet]; rewrite ?Ev.
      2:{ split; [reflexivity|]. intros s' E. injection E as <-. apply WF_slot; [exact Hs|apply Hp]. }
      destruct (some_eqb (hd_error (slot s o f)) v); [split; [reflexivity|intros s' E; injection E as <-; exact Hs]|].
      change (i_code f) with (code_of f).
      assert (Hold : forall y, hd_error (slot s o f) = Some y -> link_typed M o f y).
      { intros y Hy. apply (g_typed M s G o f y). destruct (slot s o f) as [|z l']; [discriminate|]. injection Hy as ->. now left. }
      assert (Hdyn : (match f_opp M f with
              | None => let? s1 := when (hd_error (slot s o f)) s (fun y => inverseRemove M s y o (BASE - f_id M f)) in
                        when v s1 (fun x => inverseAdd M s1 x o (BASE - f_id M f))
              | Some g => let? s1 := when (hd_error (slot s o f)) s (fun y => inverseRemove M s y o (getFeatureID M y g)) in
                          when v s1 (fun x => inverseAdd M s1 x o (getFeatureID M x g))
              end) = (let? s1 := when (hd_error (slot s o f)) s (fun y => inverseRemove M s y o (code_of f)) in
                      when v s1 (fun x => inverseAdd M s1 x o (code_of f)))).
      { destruct (f_opp M f) as [g|] eqn:Eg; [|unfold code_of; rewrite Eg; reflexivity].
        assert (Ea : when (hd_error (slot s o f)) s (fun y => inverseRemove M s y o (getFeatureID M y g))
                = when (hd_error (slot s o f)) s (fun y => inverseRemove M s y o (code_of f))).
        { destruct (hd_error (slot s o f)) as [y|]; [|reflexivity]. cbn [when].
          now rewrite (code_getFeatureID o f g y (Hold y eq_refl) Eg). }
        rewrite Ea. clear Ea.
        destruct (when (hd_error (slot s o f)) s (fun y => inverseRemove M s y o (code_of f))) as [s1|]; [|reflexivity]. cbn [obind].
        destruct v as [x|]; [|reflexivity]. cbn [when]. now rewrite (code_getFeatureID o f g x (Ht x eq_refl) Eg). }
      rewrite Hdyn. clear Hdyn.
      destruct (when_eq (hd_error (slot s o f)) s (fun y => genInverseRemove classOf s y o (code_of f))
                 (fun y => inverseRemove M s y o (code_of f)) Hs) as [E1 W1].
      { intros y Hy. destruct (genInverseRemove_eq s y o (code_of f) (code_remove o f y (Hold y Hy))) as [H1 H2]. auto. }
      rewrite E1. destruct (when (hd_error (slot s o f)) s (fun y => inverseRemove M s y o (code_of f))) as [s1|];
        [|split; [reflexivity|discriminate]].
      cbn [obind]. specialize (W1 s1 eq_refl).
      destruct (when_eq v s1 (fun x => genInverseAdd classOf s1 x o (code_of f)) (fun x => inverseAdd M s1 x o (code_of f)) W1) as [E2 W2].
      { intros x Hx. apply genInverseAdd_eq; [exact W1|]. apply code_add; [assumption|exact Ek|now apply Ht]. }
      rewrite E2. destruct (when v s1 (fun x => inverseAdd M s1 x o (code_of f))) as [s2|]; [|split; [reflexivity|discriminate]].
      cbn [obind doStore]. split; [reflexivity|]. intros s' E. injection E as <-. apply WF_slot; [now apply W2|apply Hp].
  Qed.

  (** ** resources *)
  Lemma genSetResource_eq s x r : WF s ->
    genSetResource classOf s x r = eSetResource M s x r /\ forall s', eSetResource M s x r = Some s' -> WF s'.
  Proof.
    intros Hs. unfold genSetResource, eSetResource.
    set (p := match internalResource s x, r with Some r', Some _ => contentsRemove s r' x | _, _ => Some s end).
    assert (Hp : forall s1, p = Some s1 -> WF s1).
    { subst p. intros s1 E. destruct (internalResource s x) as [r'|]; [|now injection E as <-].
      destruct r; [|now injection E as <-]. apply contentsRemove_frame in E as (E1 & E2 & E3). now apply (WF_ext s). }
    destruct p as [s1|]; [|split; [reflexivity|discriminate]]. cbn [obind]. specialize (Hp s1 eq_refl).
    destruct (container s1 x) as [c|]; cbn [obind].
    2:{ split; [reflexivity|]. intros s' E. injection E as <-. now apply (WF_ext s1). }
    destruct (eContainmentFeature M x c (containerFeatureID s1 x)) as [f|]; [|split; [reflexivity|discriminate]].
    cbn [obind]. destruct (f_resolve M f); cbn [obind].
    { split; [reflexivity|]. intros s' E. injection E as <-. now apply (WF_ext s1). }
    destruct (genRemoveFromContainer_eq s1 x Hp) as [E1 W1]. rewrite E1.
    destruct (removeFromContainer M s1 x) as [s2|]; [|split; [reflexivity|discriminate]]. cbn [obind].
    destruct (basicSetContainer M s2 x None (-1)) as [s3|] eqn:E3; [|split; [reflexivity|discriminate]]. cbn [obind].
    split; [reflexivity|]. intros s' E. injection E as <-.
    apply (WF_ext s3); [|reflexivity..]. apply (WF_basicSet s2 x None (-1) s3); [now apply W1|discriminate|exact E3].
  Qed.
  Lemma genContentsOp_eq s r p : WF s ->
    genContentsOp classOf s r p = contentsOp M s r p /\ forall s', contentsOp M s r p = Some s' -> WF s'.
  Proof.
    intros Hs. unfold genContentsOp, contentsOp.
    destruct (list_effect (contents s r) p) as [[[st R] A]|]; [|split; [reflexivity|discriminate]]. cbn [obind].
    assert (H0 : WF (contentsStages s r st)).
    { destruct (contentsStages_frame r st s) as (E1 & E2 & _ & E4 & _). now apply (WF_ext s). }
    destruct (foldM_eq (fun s x => genSetResource classOf s x None) (fun s x => eSetResource M s x None) R _ H0) as [E1 W1].
    { intros s1 x _ Hw. now apply genSetResource_eq. }
    rewrite E1. destruct (foldM (fun s x => eSetResource M s x None) R _) as [s1|]; [|split; [reflexivity|discriminate]].
    cbn [obind]. apply foldM_eq; [now apply W1|]. intros s2 x _ Hw. now apply genSetResource_eq.
  Qed.

  (** ** calls *)
  Lemma typed_link o f x : In f (features M o) -> well_typed classOf f x -> link_typed M o f x.
  Proof.
    intros Hf Ht. split; [exact Hf|]. intros g E. destruct Ht as [Et|(t & Et & Hc)].
    - destruct (type_check f g (classOf x) cEObject E Et) as [H _]. now destruct H.
    - destruct (type_check f g (classOf x) t E Et) as [_ H]. exact (H Hc).
  Qed.
  Lemma featureID_own o f : In f (features M o) -> featureID_of classOf o f = Some (i_id f).
  Proof.
    intro Hf. destruct (feat M W o f Hf) as (_ & _ & H0). unfold featureID_of.
    assert (existsb (Nat.eqb f) (features M o) = true) as ->.
    { apply existsb_exists. exists f. split; [exact Hf|apply Nat.eqb_refl]. }
    destruct (Z.geb_spec (f_id M f) 0); [reflexivity|lia].
  Qed.
  Lemma changeable_check o f : editable classOf o f ->
    if i_many f then
      exists l, get_of (classOf o) (i_id f) = Found (GetList l) /\ list_ok f l = true
        /\ set_of (classOf o) (i_id f) = Found (SetList l) /\ unset_of (classOf o) (i_id f) = Found (UnsetClear l)
    else
      exists t, reference_type f = Some t /\ t <> cEObject
        /\ set_of (classOf o) (i_id f) = Found (expected_set t f)
        /\ ((unset_of (classOf o) (i_id f) = Found (UnsetField f) /\ i_linked f = false)
            \/ unset_of (classOf o) (i_id f) = Found (UnsetSet (expected_set cEObject f)))
        /\ get_of (classOf o) (i_id f) = Found (if i_container f then GetContainer (i_id f) else GetSlot f).
  Proof.
    intros (Hf & Hr & Hc & Hd). pose proof (everywhere_spec _ changeables_checked classOf o f Hf) as H.
    unfold check_changeable in H. rewrite Hr, Hc in H. cbn [andb] in H. destruct (i_many f).
    - destruct (get_of (classOf o) (i_id f)) as [[| |l]| |]; try discriminate H.
      apply andb_prop in H as [H H3]. apply andb_prop in H as [H1 H2]. apply is_true in H2, H3.
      exists l. auto.
    - apply andb_prop in H as [H H4]. apply andb_prop in H as [H H3].
      destruct (reference_type f) as [t|]; [|discriminate H]. apply andb_prop in H as [H1 H2].
      apply is_true in H1, H4. apply negb_true_iff, Nat.eqb_neq in H2.
      exists t. split; [reflexivity|]. split; [exact H2|]. split; [exact H1|]. split; [|exact H4].
      unfold unset_plain in H3. destruct (unset_of (classOf o) (i_id f)) as [[a|l|f']| |]; try discriminate H3.
      + apply is_true in H3. right. now rewrite H3.
      + apply andb_prop in H3 as [H3 H5]. apply Nat.eqb_eq in H3. apply negb_true_iff in H5. left. now rewrite H3.
  Qed.
  Lemma editable_removable o f : editable classOf o f -> plain_or_removable f.
  Proof. intros (_ & H & _ & H'). split; assumption. Qed.

  Lemma expected_unset o s f : plain_or_removable f -> In f (features M o) -> WF s -> GInv M s ->
    (i_linked f = false -> eSet M s o f None = Some (setSlot s o f [])).
  Proof.
    intros Hp Hf Hs G Hl. unfold eSet. assert (Hc : isContainer M f = false).
    { unfold i_linked, i_bidirectional in Hl. unfold isContainer. change (i_opp f) with (f_opp M f) in Hl.
      destruct (f_opp M f); [discriminate|reflexivity]. }
    rewrite Hc. change (isBidirectional M f || f_cont M f) with (i_linked f). rewrite Hl. reflexivity.
  Qed.

  Lemma clear_slot s o f s1 : GInv M s -> RInv M s -> f_many M f = true -> In f (features M o) ->
    listOp M s o f Clear = Some s1 -> slot s1 o f = [].
  Proof.
    intros G R Hm Hf E.
    assert (L : legal M s (OList o f Clear)).
    { split; [exact Hm|]. split; [exact Hf|]. split; [exact I|]. intros x Hx. destruct Hx. }
    pose proof (listOp_ok M W s o f Clear G R L) as H. pose proof (list_effect_total (slot s o f) Clear I) as T.
    destruct (list_effect (slot s o f) Clear) as [[[st Rm] A]|]; [|congruence].
    destruct H as (s' & E' & _ & _ & Hl). assert (s' = s1) by congruence. subst s'. rewrite Hl.
    cbn in T. exact T.
  Qed.

  Lemma genStep_eq s p : WF s -> GInv M s -> RInv M s -> gen_legal classOf s p ->
    forall n, genStep classOf (S n) s p = Some (grun M s (dynamic_calls classOf p))
      /\ forall s', grun M s (dynamic_calls classOf p) = Some s' -> WF s' /\ (reachable M s -> reachable M s').
  Proof.
    intros Hs G R L n. destruct p as [o f [v|[c|]]|o f|o f p|r p]; cbn [genStep dynamic_calls].
    - destruct L as (He & Hm & Ht). pose proof (changeable_check o f He) as H. change (f_many M f) with (i_many f) in Hm.
      rewrite Hm in H. destruct H as (t & Et & Hne & Hset & _). pose proof He as (Hf & Hr & Hc & Hd).
      assert (Hl : forall x, v = Some x -> link_typed M o f x) by (intros x Hx; apply typed_link; [exact Hf|exact (Ht x Hx)]).
      assert (Hv : as_type classOf t (VObj v) = v).
      { destruct v as [x|]; [|reflexivity]. cbn [as_type]. destruct (Ht x eq_refl) as [E|(t' & E & Hcf)]; [congruence|].
        rewrite Et in E. injection E as <-. now rewrite Hcf. }
      destruct (doSet_eq s o f t v (VObj v) Hs G Hf (editable_removable o f He) Hl Hv) as [E1 W1].
      unfold genESet. rewrite (featureID_own o f Hf). cbn [genSetFromID]. rewrite Hset, E1.
      cbn [grun gstep]. rewrite (accessed_own M W o f Hf). cbn [obind].
      split; [now destruct (eSet M s o f v)|]. intros s' E.
      destruct (eSet M s o f v) as [s1|] eqn:Es; [|discriminate]. cbn [obind] in E. injection E as <-.
      split; [now apply W1|]. intro Hre. apply (reach_step M s (OSet o f v)); [exact Hre| |].
      + split; [exact Hm|]. split; [exact Hf|exact Hl].
      + cbn [gstep]. rewrite (accessed_own M W o f Hf). exact Es.
    - destruct L as (He & Hm & Hok & Ht). pose proof (changeable_check o f He) as H. change (f_many M f) with (i_many f) in Hm.
      rewrite Hm in H. destruct H as (l & _ & Hlo & Hset & _). pose proof He as (Hf & Hr & Hc & Hd).
      assert (Hl : forall x, In x c -> link_typed M o f x) by (intros x Hx; apply typed_link; [exact Hf|exact (Ht x Hx)]).
      unfold genESet. rewrite (featureID_own o f Hf). cbn [genSetFromID]. rewrite Hset. cbn [doSet].
      destruct (genListOp_eq s o f l Clear Hs G (editable_removable o f He) Hlo I) as [E1 W1]; [intros x Hx; destruct Hx|].
      rewrite E1. cbn [grun gstep]. rewrite (accessed_own M W o f Hf). cbn [obind].
      destruct (listOp M s o f Clear) as [s1|] eqn:Ec; [|split; [reflexivity|discriminate]]. cbn [obind].
      pose proof (clear_slot s o f s1 G R Hm Hf Ec) as Hnil.
      assert (L1 : legal M s (OList o f Clear)).
      { split; [exact Hm|]. split; [exact Hf|]. split; [exact I|]. intros x Hx. destruct Hx. }
      assert (Ec' : gstep M s (OList o f Clear) = Some s1) by (cbn [gstep]; rewrite (accessed_own M W o f Hf); exact Ec).
      destruct (gstep_ok M W s (OList o f Clear) G R L1) as [[E' _]|(s1' & E' & _ & G1 & R1)]; [congruence|].
      assert (s1' = s1) by congruence. subst s1'.
      assert (Hok1 : op_ok Nat.eqb (slot s1 o f) (AddAll (Ext c))) by (rewrite Hnil; exact Hok).
      destruct (genListOp_eq s1 o f l (AddAll (Ext c)) (W1 s1 eq_refl) G1 (editable_removable o f He) Hlo Hok1 Hl) as [E2 W2].
      rewrite E2. split; [now destruct (listOp M s1 o f (AddAll (Ext c)))|]. intros s' E.
      destruct (listOp M s1 o f (AddAll (Ext c))) as [s2|] eqn:Ea; [|discriminate]. cbn [obind] in E. injection E as <-.
      split; [now apply W2|]. intro Hre. apply (reach_step M s1 (OList o f (AddAll (Ext c)))).
      + exact (reach_step M s _ s1 Hre L1 Ec').
      + split; [exact Hm|]. split; [exact Hf|]. split; [exact Hok1|exact Hl].
      + cbn [gstep]. rewrite (accessed_own M W o f Hf). exact Ea.
    - destruct L.
    - pose proof (changeable_check o f L) as H. pose proof L as (Hf & Hr & Hc & Hd). change (f_many M f) with (i_many f).
      unfold genEUnset. rewrite (featureID_own o f Hf). cbn [genUnsetFromID].
      destruct (i_many f) eqn:Hm.
      + destruct H as (l & _ & Hlo & _ & Hun). rewrite Hun. cbn [doUnset].
        destruct (genListOp_eq s o f l Clear Hs G (editable_removable o f L) Hlo I) as [E1 W1]; [intros x Hx; destruct Hx|].
        rewrite E1. cbn [grun gstep]. rewrite (accessed_own M W o f Hf). cbn [obind].
        split; [now destruct (listOp M s o f Clear)|]. intros s' E.
        destruct (listOp M s o f Clear) as [s1|] eqn:Ec; [|discriminate]. cbn [obind] in E. injection E as <-.
        split; [now apply W1|]. intro Hre. apply (reach_step M s (OList o f Clear)); [exact Hre| |].
        * split; [exact Hm|]. split; [exact Hf|]. split; [exact I|]. intros x Hx. destruct Hx.
        * cbn [gstep]. rewrite (accessed_own M W o f Hf). exact Ec.
      + destruct H as (t & _ & _ & _ & Hun & _).
        assert (H : match unset_of (classOf o) (i_id f) with Found a => doUnset classOf s o a | _ => None end = eSet M s o f None
                    /\ (exists a, unset_of (classOf o) (i_id f) = Found a)
                    /\ forall s', eSet M s o f None = Some s' -> WF s').
        { destruct (doSet_eq s o f cEObject None (VObj None) Hs G Hf (editable_removable o f L)) as [E1 W1];
            [discriminate|reflexivity|].
          destruct Hun as [[Hun Hlk]|Hun]; rewrite Hun; cbn [doUnset].
          - pose proof (expected_unset o s f (editable_removable o f L) Hf Hs G Hlk) as E. rewrite E. rewrite E in W1. eauto.
          - rewrite E1. eauto. }
        destruct H as (H1 & (a & Ha) & W1). rewrite Ha in *. rewrite H1.
        cbn [grun gstep]. rewrite (accessed_own M W o f Hf). cbn [obind].
        split; [now destruct (eSet M s o f None)|]. intros s' E.
        destruct (eSet M s o f None) as [s1|] eqn:Es; [|discriminate]. cbn [obind] in E. injection E as <-.
        split; [now apply W1|]. intro Hre. apply (reach_step M s (OSet o f None)); [exact Hre| |].
        * split; [exact Hm|]. split; [exact Hf|discriminate].
        * cbn [gstep]. rewrite (accessed_own M W o f Hf). exact Es.
    - destruct L as (He & Hm & Hok & Ht). pose proof (changeable_check o f He) as H. change (f_many M f) with (i_many f) in Hm.
      rewrite Hm in H. destruct H as (l & Hget & Hlo & _). pose proof He as (Hf & Hr & Hc & Hd).
      assert (Hl : forall x, In x (op_args p) -> link_typed M o f x) by (intros x Hx; apply typed_link; [exact Hf|exact (Ht x Hx)]).
      unfold genEList. rewrite (featureID_own o f Hf). cbn [obind]. rewrite Hget.
      destruct (genListOp_eq s o f l p Hs G (editable_removable o f He) Hlo Hok Hl) as [E1 W1].
      rewrite E1. cbn [grun gstep]. rewrite (accessed_own M W o f Hf). cbn [obind].
      split; [now destruct (listOp M s o f p)|]. intros s' E.
      destruct (listOp M s o f p) as [s1|] eqn:Ec; [|discriminate]. cbn [obind] in E. injection E as <-.
      split; [now apply W1|]. intro Hre. apply (reach_step M s (OList o f p)); [exact Hre| |].
      + split; [exact Hm|]. split; [exact Hf|]. split; [exact Hok|exact Hl].
      + cbn [gstep]. rewrite (accessed_own M W o f Hf). exact Ec.
    - cbn in L. destruct (genContentsOp_eq s r p Hs) as [E1 W1]. rewrite E1. cbn [grun gstep].
      split; [now destruct (contentsOp M s r p)|]. intros s' E.
      destruct (contentsOp M s r p) as [s1|] eqn:Ec; [|discriminate]. cbn [obind] in E. injection E as <-.
      split; [now apply W1|]. intro Hre. exact (reach_step M s (OContents r p) s1 Hre L Ec).
  Qed.

  Lemma WF_init : WF init.
  Proof. split; [discriminate|reflexivity]. Qed.
  Lemma genStep_fuel s p n r : WF s -> GInv M s -> RInv M s -> gen_legal classOf s p ->
    genStep classOf n s p = Some r -> r = grun M s (dynamic_calls classOf p).
  Proof.
    intros Hs G R L E. destruct n as [|n].
    - pose proof (genStep_eq s p Hs G R L 0) as [E1 _].
      destruct p as [o f v|o f|o f p|q p]; cbn [genStep] in E, E1; try congruence.
      + unfold genESet in E, E1. destruct (featureID_of classOf o f); [discriminate E|congruence].
      + unfold genEUnset in E, E1. destruct (featureID_of classOf o f); [discriminate E|congruence].
    - pose proof (genStep_eq s p Hs G R L n) as [E1 _]. congruence.
  Qed.
  Lemma gen_reachable_ok s : gen_reachable classOf s -> WF s /\ reachable M s.
  Proof.
    induction 1 as [|s p n s' _ [Hs Hr] L E].
    - split; [exact WF_init|constructor].
    - destruct (reachable_ok M W s Hr) as [G R].
      pose proof (genStep_fuel s p n (Some s') Hs G R L E) as E'.
      destruct (genStep_eq s p Hs G R L 0) as [_ H]. symmetry in E'. destruct (H s' E') as [H1 H2]. auto.
  Qed.

  (** ** reads *)
  Lemma genEGet_linked s o f : In f (features M o) -> removable f = true ->
    genEGet classOf s o f =
      if isContainer M f && (containerFeatureID s o =? f_id M f) && match container s o with None => true | Some _ => false end
      then None else eGet M s o f.
  Proof.
    intros Hf Hr. pose proof (everywhere_spec _ gets_checked classOf o f Hf) as H. unfold check_get in H. rewrite Hr in H.
    unfold genEGet. rewrite (featureID_own o f Hf), (eGet_own M W s o f Hf). cbn [obind].
    destruct (i_many f) eqn:Em.
    - assert (Hc : isContainer M f = false) by (apply (many_not_container M W); exact Em). rewrite Hc. cbn [andb].
      destruct (get_of (classOf o) (i_id f)) as [[| |l]| |]; try discriminate H.
      apply list_ok_spec in H as (-> & _). reflexivity.
    - apply is_true in H. rewrite H. change (isContainer M f) with (i_container f). destruct (i_container f); cbn [andb]; [|reflexivity].
      change (i_id f) with (f_id M f). destruct (containerFeatureID s o =? f_id M f); [|reflexivity].
      cbn [andb]. now destruct (container s o).
  Qed.
  Lemma genEGet_editable s o f : editable classOf o f ->
    genEGet classOf s o f =
      if isContainer M f && (containerFeatureID s o =? f_id M f) && match container s o with None => true | Some _ => false end
      then None else eGet M s o f.
  Proof.
    intro He. pose proof (changeable_check o f He) as H. pose proof He as (Hf & _).
    unfold genEGet. rewrite (featureID_own o f Hf), (eGet_own M W s o f Hf). cbn [obind].
    destruct (i_many f) eqn:Em.
    - assert (Hc : isContainer M f = false) by (apply (many_not_container M W); exact Em). rewrite Hc. cbn [andb].
      destruct H as (l & Hg & Hl & _). rewrite Hg. apply list_ok_spec in Hl as (-> & _). reflexivity.
    - destruct H as (t & _ & _ & _ & _ & Hg). rewrite Hg. change (isContainer M f) with (i_container f).
      destruct (i_container f); cbn [andb]; [|reflexivity].
      change (i_id f) with (f_id M f). destruct (containerFeatureID s o =? f_id M f); [|reflexivity].
      cbn [andb]. now destruct (container s o).
  Qed.
  Lemma gen_holds_linked s o f x : In f (features M o) -> removable f = true ->
    (gen_holds classOf s o f x <-> holds M s o f x).
  Proof.
    intros Hf Hr. unfold gen_holds, holds. rewrite (genEGet_linked s o f Hf Hr).
    destruct (isContainer M f) eqn:Ec; [|reflexivity]. cbn [andb].
    destruct (containerFeatureID s o =? f_id M f) eqn:Ei; [|reflexivity]. cbn [andb].
    destruct (container s o) eqn:Eo; [reflexivity|]. split; [intros (l & H & _); discriminate|].
    rewrite (eGet_own M W s o f Hf), Ec, Ei, Eo. intros (l & H & Hx). injection H as <-. destruct Hx.
  Qed.

  (** ** features that cannot be changed *)
  Lemma fixed_loops o f : In f (features M o) -> changeable f = false ->
    forall n s v, genSetFromID classOf n s o (i_id f) v = None /\ genUnsetFromID classOf n s o (i_id f) = None.
  Proof.
    intros Hf Hc. pose proof (everywhere_spec _ fixed_checked classOf o f Hf) as H. unfold check_fixed in H. rewrite Hc in H.
    apply andb_prop in H as [H1 H2]. apply is_true in H1, H2.
    destruct (feat M W o f Hf) as (Hat & _ & H0). change (f_id M f) with (i_id f) in *.
    assert (Hex : existsb (Nat.eqb f) (features M o) = true) by (apply existsb_exists; exists f; split; [exact Hf|apply Nat.eqb_refl]).
    assert (Hlt : i_id f - static_count classOf o <? 0 = true).
    { apply Z.ltb_lt. destruct (id_check (classOf o) f Hf) as (_ & _ & Hl). unfold static_count. lia. }
    assert (Hge : i_id f >=? 0 = true) by (destruct (Z.geb_spec (i_id f) 0); [reflexivity|lia]).
    induction n as [|n IH]; intros s v; [split; reflexivity|]. cbn [genSetFromID genUnsetFromID].
    rewrite H1, H2, Hat, Hlt, Hex. change (f_id M f) with (i_id f). rewrite Hge. apply IH.
  Qed.

  (** ** a list given to its own reference *)
  Lemma set_own_list s o f : WF s -> GInv M s -> RInv M s -> editable classOf o f -> f_many M f = true ->
    forall n, exists s', genStep classOf (S n) s (CSet o f (VList Self)) = Some (Some s') /\ slot s' o f = [].
  Proof.
    intros Hs G R He Hm n. pose proof (changeable_check o f He) as H. change (f_many M f) with (i_many f) in Hm.
    rewrite Hm in H. destruct H as (l & _ & Hlo & Hset & _). pose proof He as (Hf & _).
    cbn [genStep]. unfold genESet. rewrite (featureID_own o f Hf). cbn [genSetFromID]. rewrite Hset. cbn [doSet].
    destruct (genListOp_eq s o f l Clear Hs G (editable_removable o f He) Hlo I) as [E1 W1]; [intros x Hx; destruct Hx|].
    rewrite E1.
    assert (L1 : legal M s (OList o f Clear)).
    { split; [exact Hm|]. split; [exact Hf|]. split; [exact I|]. intros x Hx. destruct Hx. }
    pose proof (listOp_ok M W s o f Clear G R L1) as K. pose proof (list_effect_total (slot s o f) Clear I) as T.
    destruct (list_effect (slot s o f) Clear) as [[[st Rm] A]|]; [|destruct T].
    destruct K as (s1 & Ec & _ & _ & Hsl). rewrite Ec. cbn [obind].
    pose proof (clear_slot s o f s1 G R Hm Hf Ec) as Hnil.
    unfold genListOp. pose proof (list_ok_spec f l Hlo) as (-> & _). rewrite Hnil. cbn [list_effect].
    eexists. split; [reflexivity|]. cbn. now rewrite !upd_eq.
  Qed.

  (** ** attributes *)
  Lemma read_own a o f : In f (features M o) -> plain_attribute f = true -> attrGet classOf a o f = Some (a o f).
  Proof.
    intros Hf Hp. destruct (attribute_check (classOf o) f Hf Hp) as (l & t & Hg & _).
    unfold attrGet. rewrite (featureID_own o f Hf). cbn [obind]. rewrite Hg. reflexivity.
  Qed.
  Lemma literal_eqb_spec x y : literal_eqb x y = true <-> x = y.
  Proof.
    destruct x, y; cbn; try (split; [discriminate|discriminate]); try tauto.
    - rewrite Bool.eqb_true_iff. split; congruence.
    - rewrite Z.eqb_eq. split; congruence.
    - rewrite String.eqb_eq. split; congruence.
  Qed.
  Lemma is_literal_spec v l : is_literal v l = true <-> v = AV l.
  Proof. destruct v; cbn; [rewrite literal_eqb_spec; split; congruence|split; discriminate]. Qed.
  Lemma assert_of_type l t v : type_ok l t = true -> of_type (zero_of l) v -> assert_type t v = Some v.
  Proof.
    intros Ht Hv. destruct l; cbn in Ht, Hv.
    - apply String.eqb_eq in Ht. subst t. destruct v as [[]|]; try destruct Hv. reflexivity.
    - apply String.eqb_eq in Ht. subst t. destruct v as [[]|]; try destruct Hv. reflexivity.
    - apply String.eqb_eq in Ht. subst t. destruct v as [[]|]; try destruct Hv. reflexivity.
    - destruct v as [[]|]; try destruct Hv. cbn. apply negb_true_iff in Ht. now rewrite Ht.
  Qed.
  Lemma assert_same t v v' : assert_type t v = Some v' -> v' = v.
  Proof.
    destruct v as [[]|]; cbn;
    match goal with |- (if ?b then _ else _) = _ -> _ => destruct b end; intro H; congruence.
  Qed.
  Lemma setAttr_same a o f v : setAttr a o f v o f = v.
  Proof. unfold setAttr. now rewrite !upd_eq. Qed.
  Lemma setAttr_other a o f v o' g : o' <> o \/ g <> f -> setAttr a o f v o' g = a o' g.
  Proof.
    intro H. unfold setAttr. destruct (Nat.eq_dec o' o) as [->|Hne]; [|now rewrite upd_ne].
    rewrite upd_eq. destruct H as [H|H]; [now destruct H|]. now rewrite upd_ne.
  Qed.
End Refine.
