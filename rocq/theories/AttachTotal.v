From Verif Require Import Base ListModel ListSpec ListProofs NotifyModel NotifyProofs
  GraphModel GraphSpec GraphProofs GraphInv GraphSteps GraphAcyclic AttachModel AttachErase AttachSpec AttachProofs AttachSteps AttachGraph.

(** ** a rank for the containment links of a state and those a call asks for *)
Fixpoint depth (n : nat) (s : state) (x : obj) : option nat :=
  match n with
  | O => None
  | S n' => match container s x with None => Some O | Some c => let? d := depth n' s c in Some (S d) end
  end.
Lemma depth_mono n s : forall m x d, depth n s x = Some d -> (n <= m)%nat -> depth m s x = Some d.
Proof.
  induction n as [|n IH]; intros [|m] x d E H; try discriminate; try lia. cbn [depth] in *.
  destruct (container s x) as [c|]; [|assumption]. destruct (depth n s c) as [e|] eqn:Ed; [|discriminate].
  rewrite (IH m c e Ed) by lia. assumption.
Qed.
Lemma depth_lt n s : forall x d, depth n s x = Some d -> (d < n)%nat.
Proof.
  induction n as [|n IH]; intros x d E; [discriminate|]. cbn [depth] in E.
  destruct (container s x) as [c|]; [|injection E as <-; lia]. destruct (depth n s c) as [e|] eqn:Ed; [|discriminate].
  injection E as <-. apply IH in Ed. lia.
Qed.
Lemma depth_total s D : acyclic s -> (forall x, container s x <> None -> In x D) ->
  forall n vs x, NoDup vs -> incl vs D -> (forall v, In v vs -> above s x v) ->
    (length D < n + length vs)%nat -> depth n s x <> None.
Proof.
  intros Ha HD. induction n as [|n IH]; intros vs x Hnd Hi Hab Hl.
  - pose proof (NoDup_incl_length Hnd Hi). cbn in *; lia.
  - cbn [depth]. destruct (container s x) as [c|] eqn:Ec; [|discriminate].
    assert (H : depth n s c <> None).
    { apply (IH (x :: vs)).
      + constructor; [|assumption]. intro Hv. exact (Ha x (Hab x Hv)).
      + intros v [<-|Hv]; [apply HD; congruence|auto].
      + intros v [<-|Hv]; [apply above_direct; exact Ec|]. eapply above_trans; [apply above_direct; exact Ec|]. auto.
      + cbn. lia. }
    destruct (depth n s c); [discriminate|contradiction].
Qed.

Fixpoint on_path (n : nat) (s : state) (p u : obj) : bool :=
  match n with
  | O => false
  | S n' => Nat.eqb p u || match container s p with Some c => on_path n' s c u | None => false end
  end.
Lemma on_path_below n s : forall p u, on_path n s p u = true -> u = p \/ above s u p.
Proof.
  induction n as [|n IH]; intros p u H; [discriminate|]. cbn [on_path] in H. apply orb_true_iff in H as [H|H].
  - apply Nat.eqb_eq in H. now left.
  - destruct (container s p) as [c|] eqn:Ec; [|discriminate]. right. destruct (IH _ _ H) as [->|H'].
    + now apply above_direct.
    + eapply above_step; eassumption.
Qed.
Lemma on_path_up n s : forall p u z, depth n s p <> None -> on_path n s p u = true -> container s u = Some z -> on_path n s p z = true.
Proof.
  induction n as [|n IH]; intros p u z Hd H Hz; [discriminate|]. cbn [on_path depth] in *. apply orb_true_iff in H as [H|H].
  - apply Nat.eqb_eq in H as ->. rewrite Hz in *. apply orb_true_iff. right.
    destruct n as [|n]; [contradiction|]. cbn [on_path]. now rewrite Nat.eqb_refl.
  - destruct (container s p) as [c|] eqn:Ec; [|discriminate]. apply orb_true_iff. right. apply (IH c u); auto.
    destruct (depth n s c); [discriminate|contradiction].
Qed.

Definition links (s : state) (L : list (obj * obj)) (u z : obj) : Prop := container s u = Some z \/ In (u, z) L.

Lemma ranked s L o : acyclic s -> Fin s -> (forall y c, In (y, c) L -> c = o /\ may_contain s o y) ->
  exists h H, (forall u z, links s L u z -> (h u < h z)%nat) /\ forall u, (h u <= H)%nat.
Proof.
  intros Ha [D HD] HL. set (N := S (length D)).
  assert (Ht : forall x, depth N s x <> None).
  { intro x. apply (depth_total s D Ha HD N [] x); [constructor|easy|easy|]. unfold N. cbn. lia. }
  exists (fun u => match depth N s u with Some d => N - d | None => 0 end + if on_path N s o u then S N else 0)%nat, (N + S N)%nat. split.
  - intros u z Huz. destruct (depth N s u) as [du|] eqn:Eu; [|destruct (Ht u Eu)].
    destruct (depth N s z) as [dz|] eqn:Ez; [|destruct (Ht z Ez)]. pose proof (depth_lt _ _ _ _ Eu). pose proof (depth_lt _ _ _ _ Ez).
    destruct Huz as [Hc|Hl].
    + assert (du = S dz).
      { unfold N in Eu. cbn [depth] in Eu. rewrite Hc in Eu. destruct (depth (length D) s z) as [e|] eqn:Ee; [|discriminate].
        injection Eu as <-. apply (depth_mono _ _ N) in Ee; [congruence|unfold N; lia]. }
      destruct (on_path N s o u) eqn:Ep; [rewrite (on_path_up N s o u z (Ht o) Ep Hc); lia|].
      destruct (on_path N s o z); lia.
    + destruct (HL u z Hl) as [-> [H1 H2]]. assert (on_path N s o u = false) as ->.
      { destruct (on_path N s o u) eqn:Ep; [|reflexivity]. apply on_path_below in Ep as [Ep|Ep]; contradiction. }
      assert (on_path N s o o = true) as -> by (unfold N; cbn [on_path]; now rewrite Nat.eqb_refl). lia.
  - intro u. destruct (depth N s u); destruct (on_path N s o u); lia.
Qed.

Lemma rwn_incl l x l' cb : removeWithNotification l x = Some (l', cb) -> incl l' l.
Proof.
  unfold removeWithNotification. destruct (_ =? -1); [intro E; injection E as <- <-; apply incl_refl|].
  destruct (doRemove 0%nat l _) as [[[l1 y] c]|] eqn:E; [|discriminate]. cbn [obind]. intro H. injection H as <- <-.
  assert (Hg : zget l (indexOf Nat.eqb l x) <> None) by (intro Hg; unfold doRemove in E; rewrite Hg in E; discriminate).
  unfold zget in Hg. destruct (Z.ltb_spec (indexOf Nat.eqb l x) 0); [contradiction|].
  destruct (nth_error l (Z.to_nat (indexOf Nat.eqb l x))) as [v|] eqn:Ev; [|contradiction].
  rewrite (doRemove_eq 0%nat l _ v Ev) in E by lia. injection E as <- <- <-.
  assert (Hsk : forall k (m : list nat), incl (skipn k m) m).
  { intros k m z Hz. rewrite <- (firstn_skipn k m). apply in_app_iff. now right. }
  assert (Hfi : forall k (m : list nat), incl (firstn k m) m).
  { intros k m z Hz. rewrite <- (firstn_skipn k m). apply in_app_iff. now left. }
  unfold delete_at, delete_range. intros z Hz. apply in_app_iff in Hz as [Hz|Hz]; [eapply Hfi|eapply Hsk]; eassumption.
Qed.

Section Total.
  Context (M : metamodel) (W : wf_metamodel M) (E : obj -> obj -> Prop) (h : obj -> nat) (H : nat) (fuel : nat).
  Context (Hlt : forall u z, E u z -> (h u < h z)%nat) (Hbound : forall u, (h u <= H)%nat) (Hfuel : (H < fuel)%nat).

  (** every containment link of the state is one of E *)
  Definition Under (s : state) : Prop :=
    (forall u z, container s u = Some z -> E u z) /\ (forall z f u, f_cont M f = true -> In u (slot s z f) -> E u z).

  Lemma Under_same s s' : container s' = container s -> slot s' = slot s -> Under s -> Under s'.
  Proof. intros H1 H2 [U1 U2]. unfold Under. rewrite H1, H2. now split. Qed.
  Lemma Under_slot s z f l : Under s -> (f_cont M f = true -> forall u, In u l -> E u z) -> Under (setSlot s z f l).
  Proof.
    intros [U1 U2] Hl. split; [exact U1|]. intros z' f' u Hf Hu.
    destruct (Nat.eq_dec z' z) as [->|Hz]; [destruct (Nat.eq_dec f' f) as [->|Hff]|].
    - rewrite slot_eq in Hu. auto.
    - rewrite slot_ne in Hu by auto. eauto.
    - rewrite slot_ne in Hu by auto. eauto.
  Qed.
  Lemma Under_container s x c id : Under s -> (forall c', c = Some c' -> E x c') -> Under (setContainer s x c id).
  Proof.
    intros [U1 U2] Hc. split; [|exact U2]. intros u z. cbn. unfold upd. destruct (Nat.eqb_spec u x) as [->|]; auto.
  Qed.

  Lemma walk_total s : Under s -> forall n x, (h x < n)%nat -> walk M n s x <> None.
  Proof.
    intros U. induction n as [|n IH]; intros x Hn; [lia|]. cbn [walk].
    assert (Hm : forall l, (forall u, In u l -> (h u < h x)%nat) -> mapO (walk M n s) l <> None).
    { induction l as [|u l IHl]; intro Hu; cbn [mapO]; [discriminate|].
      pose proof (IH u) as Hw. pose proof (Hu u (or_introl eq_refl)).
      destruct (walk M n s u); [|exfalso; apply Hw; [lia|reflexivity]]. cbn [obind].
      destruct (mapO (walk M n s) l); [discriminate|]. apply IHl. intros v Hv. apply Hu. now right. }
    specialize (Hm (children M s x)). destruct (mapO (walk M n s) (children M s x)); [discriminate|]. exfalso. apply Hm; [|reflexivity].
    intros u Hu. apply Hlt. unfold children in Hu. apply in_flat_map in Hu as (f & _ & Hu).
    destruct (f_cont M f) eqn:Ef; [|destruct Hu]. eapply (proj2 U); eassumption.
  Qed.
  Lemma eResource_total_under s : Under s -> forall n x, (H - h x < n)%nat -> eResource n s x <> None.
  Proof.
    intros U. induction n as [|n IH]; intros x Hn; [lia|]. cbn [eResource]. destruct (internalResource s x); [discriminate|].
    destruct (container s x) as [c|] eqn:Ec; [|discriminate]. destruct (Nat.eqb c x); [discriminate|].
    apply IH. pose proof (Hlt _ _ (proj1 U x c Ec)). pose proof (Hbound c). lia.
  Qed.
  Lemma eResource_ok s x : Under s -> exists r, eResource fuel s x = Some r.
  Proof.
    intro U. pose proof (eResource_total_under s U fuel x) as Ht. pose proof (Hbound x).
    destruct (eResource fuel s x) as [r|]; [eauto|]. exfalso. apply Ht; [lia|reflexivity].
  Qed.
  Lemma resource_of_ok s c : Under s -> exists r, resource_of fuel s c = Some r.
  Proof. intro U. destruct c; cbn [resource_of]; [now apply eResource_ok|eauto]. Qed.
  Lemma attached_ok s r x : Under s -> exists es, attached M fuel s r x = Some (s, es).
  Proof.
    intro U. unfold attached. pose proof (walk_total s U fuel x) as Hw. pose proof (Hbound x).
    destruct (walk M fuel s x); [cbn; eauto|]. exfalso. apply Hw; [lia|reflexivity].
  Qed.
  Lemma detached_ok s r x : Under s -> exists es, detached M fuel s r x = Some (s, es).
  Proof.
    intro U. unfold detached. pose proof (walk_total s U fuel x) as Hw. pose proof (Hbound x).
    destruct (walk M fuel s x); [cbn; eauto|]. exfalso. apply Hw; [lia|reflexivity].
  Qed.
  Lemma unless_ok r q s k : (forall u, exists es, k u = Some (s, es)) -> exists es, unless_same r q s k = Some (s, es).
  Proof. intro Hk. unfold unless_same. destruct r; [|now exists []]. destruct (res_eqb _ _); [now exists []|apply Hk]. Qed.

  (** the call with announcements returns when the call does *)
  Definition lifts (m' : option state) (m : editA) : Prop :=
    forall s', m' = Some s' -> (exists es, m = Some (s', es)) /\ Under s'.
  Lemma lifts_none m : lifts None m.
  Proof. intros s E0. discriminate. Qed.
  Lemma lifts_just s : Under s -> lifts (Some s) (justA s).
  Proof. intros U s' E0. injection E0 as <-. split; [eexists; reflexivity|assumption]. Qed.
  Lemma lifts_bind m' m k' k : lifts m' m -> (forall s, m' = Some s -> Under s -> lifts (k' s) (k s)) -> lifts (obind m' k') (bindA m k).
  Proof.
    intros H1 H2 s' E0. destruct m' as [s1|]; [|discriminate]. cbn [obind] in E0. destruct (H1 s1 eq_refl) as [[es ->] U].
    destruct (H2 s1 eq_refl U s' E0) as [[es' E1] U']. cbn. rewrite E1. split; [eauto|assumption].
  Qed.
  Lemma lifts_lift m : (forall s, m = Some s -> Under s) -> lifts m (liftA m).
  Proof. intros Hm s' E0. rewrite E0. split; [eexists; reflexivity|auto]. Qed.
  Lemma lifts_when v s g' g : Under s -> (forall x, v = Some x -> lifts (g' x) (g x)) -> lifts (when v s g') (whenA v s g).
  Proof. intros U Hg. destruct v; cbn [when whenA]; [now apply Hg|now apply lifts_just]. Qed.
  Lemma lifts_fold g' g l : (forall s x, In x l -> Under s -> lifts (g' s x) (g s x)) ->
    forall s, Under s -> lifts (foldM g' l s) (foldA g l s).
  Proof.
    induction l as [|x l IH]; intros Hg s U; cbn [foldM foldA]; [now apply lifts_just|].
    apply lifts_bind; [apply Hg; [now left|assumption]|]. intros s1 _ U1. apply IH; [|assumption].
    intros s2 y Hy. apply Hg. now right.
  Qed.

  Lemma bsc_lifts s x c id : Under s -> (forall c', c = Some c' -> E x c') ->
    lifts (basicSetContainer M s x c id) (basicSetContainerA M fuel s x c id).
  Proof.
    intros U Hc s' E0. unfold basicSetContainer in E0. unfold basicSetContainerA.
    assert (Hend : forall s1 p q, Under s1 -> s' = setContainer s1 x c id ->
       (exists es, (let# s2 := unless_same p q s1 (fun q0 => detached M fuel s1 q0 x) in
          unless_same q p (setContainer s2 x c id) (fun q0 => attached M fuel (setContainer s2 x c id) q0 x)) = Some (s', es)) /\ Under s').
    { intros s1 p q U1 ->. assert (U2 : Under (setContainer s1 x c id)) by now apply Under_container. split; [|assumption].
      destruct (unless_ok p q s1 (fun q0 => detached M fuel s1 q0 x)) as [e1 E1]; [intro; now apply detached_ok|].
      rewrite E1. cbn [bindA].
      destruct (unless_ok q p (setContainer s1 x c id) (fun q0 => attached M fuel (setContainer s1 x c id) q0 x)) as [e2 E2]; [intro; now apply attached_ok|].
      rewrite E2. eauto. }
    destruct (internalResource s x) as [r|].
    - destruct c as [c|].
      + destruct (eContainmentFeature M x c id) as [f|]; [|discriminate]. cbn [obind] in *.
        destruct (negb (f_resolve M f)).
        * destruct (contentsRemove s r x) as [s0|] eqn:Ec; [|discriminate]. cbn [obind] in *. injection E0 as <-.
          assert (U0 : Under (setResource s0 x None)).
          { apply (Under_same s); auto; cbn.
            - eapply contentsRemove_container; eassumption.
            - unfold contentsRemove in Ec. destruct (removeWithNotification _ _) as [[d cb]|]; [|discriminate]. injection Ec as <-.
              destruct (contentsStages_frame r (match cb with [] => [] | _ => [(d, cb)] end) s) as (_ & _ & _ & F & _). exact F. }
          destruct (eResource_ok _ c U0) as [q ->]. cbn [obind]. now apply Hend.
        * cbn [obind] in *. injection E0 as <-. now apply Hend.
      + cbn [obind] in *. injection E0 as <-. now apply Hend.
    - destruct (resource_of_ok s (container s x) U) as [p ->]. cbn [obind].
      destruct (resource_of_ok s c U) as [q ->]. cbn [obind] in *. apply Hend; [assumption|]. destruct c; now injection E0.
  Qed.
  Lemma bscn_lifts s x id : Under s -> lifts (basicSetContainer M s x None id) (basicSetContainerA M fuel s x None id).
  Proof. intro U. apply bsc_lifts; [assumption|discriminate]. Qed.

  Lemma inverseRemove_lifts s x y id : Under s -> lifts (inverseRemove M s x y id) (inverseRemoveA M fuel s x y id).
  Proof.
    intro U. unfold inverseRemoveA, inverseRemove. destruct (id >=? 0); [|now apply bscn_lifts].
    unfold basicInverseRemoveA, basicInverseRemove. destruct (feature_at M x id) as [f|]; [|apply lifts_none]. cbn [obind].
    destruct (f_many M f).
    { apply lifts_lift. intros s1 E1. destruct (removeWithNotification (slot s x f) y) as [[l cb]|] eqn:El; [|discriminate].
      injection E1 as <-. apply Under_slot; [assumption|]. intros Hf u Hu. apply (proj2 U x f u Hf). eapply rwn_incl; eassumption. }
    destruct (isContainer M f); [now apply bscn_lifts|]. apply lifts_just. apply Under_slot; [assumption|]. intros _ u [].
  Qed.
  Lemma removeFromContainer_lifts s x : Under s -> lifts (removeFromContainer M s x) (removeFromContainerA M fuel s x).
  Proof.
    intro U. unfold removeFromContainerA, removeFromContainer. cbv zeta. destruct (container s x) as [c|]; [|now apply lifts_just].
    destruct (containerFeatureID s x >=? 0); [|now apply inverseRemove_lifts].
    destruct (feature_at M x _) as [g|]; [|now apply lifts_just]. destruct (f_opp M g) as [f|]; [|now apply lifts_just].
    now apply inverseRemove_lifts.
  Qed.
  Lemma inverseAdd_lifts s x y id : Under s -> (id < 0 -> E x y) ->
    (forall f, 0 <= id -> feature_at M x id = Some f -> (isContainer M f = true -> E x y) /\ (f_cont M f = true -> E y x)) ->
    lifts (inverseAdd M s x y id) (inverseAddA M fuel s x y id).
  Proof.
    intros U Hneg Hpos. unfold inverseAddA, inverseAdd. destruct (Z.geb_spec id 0) as [H0|H0].
    2: { apply lifts_bind; [now apply removeFromContainer_lifts|]. intros s1 _ U1. apply bsc_lifts; [assumption|].
         intros c' E0. injection E0 as <-. apply Hneg. lia. }
    unfold basicInverseAddA, basicInverseAdd. destruct (feature_at M x id) as [f|] eqn:Ef; [|apply lifts_none]. cbn [obind].
    destruct (Hpos f H0 eq_refl) as [P1 P2].
    destruct (f_many M f).
    { apply lifts_lift. cbn. intros s1 E1. injection E1 as <-. apply Under_slot; [assumption|]. intros Hf u Hu.
      apply in_app_iff in Hu as [Hu|[<-|[]]]; [|auto]. apply (proj2 U x f u Hf Hu). }
    destruct (isContainer M f).
    { apply lifts_bind; [now apply removeFromContainer_lifts|]. intros s1 _ U1. apply bsc_lifts; [assumption|].
      intros c' E0. injection E0 as <-. auto. }
    apply lifts_bind; [|intros s1 _ U1; apply lifts_just; apply Under_slot; [assumption|]; intros Hf u [<-|[]]; auto].
    destruct (slot s x f) as [|z l]; [now apply lifts_just|]. destruct (f_cont M f); [now apply inverseRemove_lifts|].
    destruct (f_opp M f); [now apply inverseRemove_lifts|now apply lifts_just].
  Qed.

  Lemma listInverseRemove_lifts s o f x : Under s -> lifts (listInverseRemove M s o f x) (listInverseRemoveA M fuel s o f x).
  Proof.
    intro U. unfold listInverseRemoveA, listInverseRemove. destruct (f_opp M f); [now apply inverseRemove_lifts|].
    destruct (f_cont M f); [now apply inverseRemove_lifts|now apply lifts_just].
  Qed.
  Lemma listInverseAdd_lifts s o f x : Under s -> link_typed M o f x -> isContainer M f = false -> (f_cont M f = true -> E x o) ->
    lifts (listInverseAdd M s o f x) (listInverseAddA M fuel s o f x).
  Proof.
    intros U [T1 T2] Hnc HE. unfold listInverseAddA, listInverseAdd. destruct (f_opp M f) as [g|] eqn:Eg.
    - destruct (feat M W _ _ (T2 g eq_refl)) as (Hat & _ & H0). apply inverseAdd_lifts; [assumption|lia|].
      intros k _ Hk. rewrite Hat in Hk. injection Hk as <-. unfold isContainer in *. destruct (wf_opp M W f g Eg) as [Eg' _].
      rewrite Eg' in *. rewrite Eg in Hnc. split; [assumption|congruence].
    - destruct (f_cont M f); [|now apply lifts_just]. destruct (feat M W _ _ T1) as (_ & _ & H0).
      apply inverseAdd_lifts; [assumption|auto|]. unfold BASE. lia.
  Qed.

  Lemma eSet_lifts s o f v : Under s -> In f (features M o) -> (forall x, v = Some x -> link_typed M o f x) ->
    (forall x, v = Some x -> f_cont M f = true -> E x o) -> (forall c, v = Some c -> isContainer M f = true -> E o c) ->
    lifts (eSet M s o f v) (eSetA M fuel s o f v).
  Proof.
    intros U Hf Ht H1 H2. unfold eSetA, eSet. cbv zeta. destruct (isContainer M f) eqn:Ec.
    { match goal with |- context [if ?b then _ else _] => destruct b end; [|now apply lifts_just].
      apply lifts_bind; [apply lifts_when; [assumption|]; intros; now apply removeFromContainer_lifts|]. intros s1 _ U1.
      apply lifts_bind; [|intros s2 _ U2; apply bsc_lifts; [assumption|]; auto].
      apply lifts_when; [assumption|]. intros c Hv. destruct (f_opp M f) as [g|] eqn:Eg; [|apply lifts_none]. cbn [obind].
      destruct (Ht c Hv) as [_ T2]. destruct (feat M W _ _ (T2 g Eg)) as (Hat & Hid & H0). rewrite Hid.
      apply inverseAdd_lifts; [assumption|lia|]. intros k _ Hk. rewrite Hat in Hk. injection Hk as <-.
      unfold isContainer in Ec. rewrite Eg in Ec. rewrite (cont_not_container M W g Ec). split; [discriminate|auto]. }
    destruct (isBidirectional M f || f_cont M f) eqn:Eb.
    2: { apply orb_false_iff in Eb as [_ Eb]. apply lifts_just. apply Under_slot; [assumption|]. congruence. }
    destruct (some_eqb _ v); [now apply lifts_just|]. apply lifts_bind.
    2: { intros s2 _ U2. apply lifts_just. apply Under_slot; [assumption|]. intros Hcf u Hu. destruct v as [x|]; [|destruct Hu].
         destruct Hu as [<-|[]]. auto. }
    destruct (f_opp M f) as [g|] eqn:Eg; (apply lifts_bind; [apply lifts_when; [assumption|]; intros; now apply inverseRemove_lifts|]);
      intros s1 _ U1; apply lifts_when; auto; intros x Hv; destruct (Ht x Hv) as [T1 T2].
    - pose proof (listInverseAdd_lifts s1 o f x U1 (Ht x Hv) Ec (H1 x Hv)) as Hl. unfold listInverseAdd, listInverseAddA in Hl.
      rewrite Eg in Hl. destruct (feat M W _ _ (T2 g Eg)) as (_ & -> & _). exact Hl.
    - unfold isBidirectional in Eb. rewrite Eg in Eb. cbn in Eb.
      pose proof (listInverseAdd_lifts s1 o f x U1 (Ht x Hv) Ec (H1 x Hv)) as Hl. unfold listInverseAdd, listInverseAddA in Hl.
      rewrite Eg, Eb in Hl. destruct (feat M W _ _ T1) as (_ & -> & _). exact Hl.
  Qed.
  Lemma eUnset_lifts s o f : Under s -> lifts (eUnset M s o f) (eUnsetA M fuel s o f).
  Proof.
    intro U. unfold eUnsetA, eUnset. cbv zeta. destruct (isContainer M f).
    { destruct (container s o); [|now apply lifts_just].
      apply lifts_bind; [now apply removeFromContainer_lifts|]. intros s1 _ U1. now apply bscn_lifts. }
    assert (Hs : forall s1, Under s1 -> Under (setSlot s1 o f [])) by (intros; apply Under_slot; [assumption|intros _ u []]).
    destruct (isBidirectional M f || f_cont M f); [|apply lifts_just; auto].
    apply lifts_bind; [|intros s1 _ U1; apply lifts_just; auto]. apply lifts_when; [assumption|]. intros y _.
    destruct (f_opp M f); now apply inverseRemove_lifts.
  Qed.

  Lemma eSetResource_lifts s x r : Under s -> lifts (eSetResource M s x r) (eSetResourceA M fuel s x r).
  Proof.
    intro U. unfold eSetResourceA, eSetResource. apply lifts_bind.
    { assert (Hcr : forall q s1, contentsRemove s q x = Some s1 -> Under s1).
      { intros q s1 Ec. apply (Under_same s); auto.
        - eapply contentsRemove_container; eassumption.
        - unfold contentsRemove in Ec. destruct (removeWithNotification _ _) as [[d cb]|]; [|discriminate]. injection Ec as <-.
          destruct (contentsStages_frame q (match cb with [] => [] | _ => [(d, cb)] end) s) as (_ & _ & _ & F & _). exact F. }
      destruct (internalResource s x) as [q|], r; try now apply lifts_just. intros s1 Ec. pose proof (Hcr q s1 Ec) as U1. rewrite Ec.
      cbn [liftA bindA]. destruct (detached_ok s1 q x U1) as [es ->]. split; [eexists; reflexivity|assumption]. }
    intros s1 _ U1. apply lifts_bind; [|intros s2 _ U2; apply lifts_just; now apply (Under_same s2)].
    destruct (container s1 x) as [c|]; [|now apply lifts_just].
    destruct (eContainmentFeature M x c _) as [f|]; [|apply lifts_none]. cbn [obind].
    destruct (f_resolve M f).
    { intros s2 E2. injection E2 as <-. split; [|assumption]. destruct (eResource_ok s1 c U1) as [[q|] ->]; [|eexists; reflexivity].
      destruct r, (internalResource s x); first [now apply attached_ok|now apply detached_ok|eexists; reflexivity]. }
    apply lifts_bind; [now apply removeFromContainer_lifts|]. intros s2 _ U2. now apply bscn_lifts.
  Qed.
  Lemma contentsInverseAdd_lifts s r x : Under s -> lifts (eSetResource M s x (Some r)) (contentsInverseAddA M fuel s r x).
  Proof.
    intros U s' E0. destruct (eSetResource_lifts s x (Some r) U s' E0) as [[es E1] U']. unfold contentsInverseAddA. rewrite E1. cbn [bindA].
    destruct (attached_ok s' r x U') as [e2 ->]. eauto.
  Qed.
  Lemma contentsInverseRemove_lifts s r x : Under s -> lifts (eSetResource M s x None) (contentsInverseRemoveA M fuel s r x).
  Proof.
    intros U s' E0. destruct (eSetResource_lifts s x None U s' E0) as [[es E1] U']. unfold contentsInverseRemoveA.
    destruct (detached_ok s r x U) as [e2 ->]. cbn [bindA]. rewrite E1. eauto.
  Qed.

  Lemma gstep_lifts s p : GInv M s -> legal M s p -> Under s -> (forall y c, In (y, c) (asked M p) -> E y c) ->
    lifts (gstep M s p) (gstepA M fuel s p).
  Proof.
    intros G L U HE. destruct p as [o f v|o f|o f p|r p|r]; cbn [gstep gstepA].
    - destruct L as (Hm & Hf & Ht). rewrite (accessed_own M W) by assumption. cbn [obind]. apply eSet_lifts; auto.
      + intros x -> Hc. apply HE. cbn. rewrite Hc. now left.
      + intros c -> Hc. apply HE. cbn. rewrite Hc. apply in_app_iff. right. now left.
    - destruct L as (Hf & _). rewrite (accessed_own M W) by assumption. cbn [obind]. now apply eUnset_lifts.
    - destruct L as (Hm & Hf & Hok & Ha). rewrite (accessed_own M W) by assumption. cbn [obind].
      unfold listOp, listOpA. destruct (list_effect (slot s o f) p) as [[[st Rm] A]|] eqn:El; [|apply lifts_none]. cbn [obind].
      apply list_effect_good in El as [El _]; [|apply (g_nodup M s G)|assumption].
      destruct (effect_elements _ _ _ _ _ (g_nodup M s G o f) El) as (_ & _ & Hel). destruct El as (_ & _ & _ & Hd & Harg).
      assert (HA : forall x, In x A -> In x (op_args p)).
      { intros x Hx. destruct (Harg x Hx) as [|Hx']; [assumption|]. destruct (Hd x Hx Hx'). }
      assert (HEA : forall x, In x A -> f_cont M f = true -> E x o).
      { intros x Hx Hc. apply HE. cbn. rewrite Hc. apply (in_map (fun y => (y, o))). auto. }
      assert (Hnc : isContainer M f = false) by (now apply many_not_container).
      apply lifts_bind.
      + apply lifts_fold; [intros; now apply listInverseRemove_lifts|]. apply Under_slot; [assumption|].
        intros Hc u Hu. apply Hel in Hu as [[Hu _]|Hu]; [|auto]. exact (proj2 U o f u Hc Hu).
      + intros s1 _ U1. apply lifts_fold; [|assumption]. intros s2 x Hx U2. apply listInverseAdd_lifts; auto.
    - unfold contentsOp, contentsOpA. destruct (list_effect _ p) as [[[st Rm] A]|]; [|apply lifts_none]. cbn [obind].
      destruct (contentsStages_frame r st s) as (F1 & _ & _ & F4 & _). apply lifts_bind.
      + apply lifts_fold; [intros; now apply contentsInverseRemove_lifts|]. now apply (Under_same s).
      + intros s1 _ U1. apply lifts_fold; [|assumption]. intros; now apply contentsInverseAdd_lifts.
    - destruct L.
  Qed.
End Total.

Lemma gstepA_total M s p s' : wf_metamodel M -> reachable_safe M s -> legal M s p -> safe_call M s p -> gstep M s p = Some s' ->
  exists n es, gstepA M n s p = Some (s', es).
Proof.
  intros W Hr L Sf Eg. pose proof (safe_reachable M s Hr) as Hr'. destruct (reachable_ok M W s Hr') as [G _].
  destruct (asked_safe M W s p Sf) as [o HL].
  destruct (ranked s (asked M p) o (reachable_acyclic M W s Hr) (finite_containers M W s Hr') HL) as (h & H & Hlt & Hb).
  destruct (gstep_lifts M W (links s (asked M p)) h H (S H) Hlt Hb (Nat.lt_succ_diag_r H) s p G L) with (s' := s') as [[es E] _]; eauto.
  - split; [intros u z Hc; now left|]. intros z f u Hf Hu. left. now apply (g_cont M s G z f u Hf).
  - intros y c Hy. now right.
Qed.
