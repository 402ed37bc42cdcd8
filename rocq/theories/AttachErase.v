From Verif Require Import Base ListModel NotifyModel GraphModel AttachModel.

(** The calls with announcements compute the same states as those of [GraphModel], when the fuel is
    large enough. *)
Definition refines (m : editA) (m' : option state) : Prop := forall s es, m = Some (s, es) -> m' = Some s.

Lemma bindA_inv m k s es : bindA m k = Some (s, es) ->
  exists s1 e1 e2, m = Some (s1, e1) /\ k s1 = Some (s, e2) /\ es = e1 ++ e2.
Proof.
  destruct m as [[s1 e1]|]; [|discriminate]. cbn. destruct (k s1) as [[s2 e2]|] eqn:E; [|discriminate].
  intro H. injection H as <- <-. eauto 6.
Qed.

Lemma refines_bind m m' k k' : refines m m' -> (forall s, refines (k s) (k' s)) -> refines (bindA m k) (obind m' k').
Proof.
  intros H1 H2 s es E. apply bindA_inv in E as (s1 & e1 & e2 & E1 & E2 & _).
  rewrite (H1 _ _ E1). cbn. exact (H2 _ _ _ E2).
Qed.
Lemma refines_just s : refines (justA s) (Some s).
Proof. intros s' es E. injection E as <- _. reflexivity. Qed.
Lemma refines_lift m : refines (liftA m) m.
Proof. destruct m; intros s' es E; [|discriminate]. injection E as <- _. reflexivity. Qed.
Lemma refines_none m : refines None m.
Proof. intros s es E. discriminate. Qed.

Section Erase.
  Context (M : metamodel) (fuel : nat).

  Lemma attached_refines s r x : refines (attached M fuel s r x) (Some s).
  Proof. intros s' es E. unfold attached in E. destruct (walk M fuel s x); [|discriminate]. injection E as <- _. reflexivity. Qed.
  Lemma detached_refines s r x : refines (detached M fuel s r x) (Some s).
  Proof. intros s' es E. unfold detached in E. destruct (walk M fuel s x); [|discriminate]. injection E as <- _. reflexivity. Qed.
  Lemma unless_refines r q s k : (forall u, refines (k u) (Some s)) -> refines (unless_same r q s k) (Some s).
  Proof. intro H. unfold unless_same. destruct r; [|apply refines_just]. destruct (res_eqb _ _); [apply refines_just|apply H]. Qed.

  Lemma bsc_erase s x c id : refines (basicSetContainerA M fuel s x c id) (basicSetContainer M s x c id).
  Proof.
    unfold basicSetContainerA, basicSetContainer. intros s' es.
    assert (Hend : forall s1 p q, (let# s2 := unless_same p q s1 (fun q0 => detached M fuel s1 q0 x) in
               unless_same q p (setContainer s2 x c id) (fun q0 => attached M fuel (setContainer s2 x c id) q0 x)) = Some (s', es) ->
               s' = setContainer s1 x c id).
    { intros s1 p q E. apply bindA_inv in E as (s2 & e1 & e2 & E1 & E2 & _).
      apply unless_refines in E1; [|intro; apply detached_refines]. injection E1 as <-.
      apply unless_refines in E2; [|intro; apply attached_refines]. congruence. }
    destruct (internalResource s x) as [r|].
    - destruct c as [c|].
      + destruct (eContainmentFeature M x c id) as [f|]; [|discriminate]. cbn [obind].
        destruct (negb (f_resolve M f)).
        * destruct (contentsRemove s r x) as [s0|]; [|discriminate]. cbn [obind].
          destruct (eResource fuel (setResource s0 x None) c) as [q|]; [|discriminate]. cbn [obind].
          intro E. now rewrite (Hend _ _ _ E).
        * cbn [obind]. intro E. now rewrite (Hend _ _ _ E).
      + cbn [obind]. intro E. now rewrite (Hend _ _ _ E).
    - destruct (resource_of fuel s (container s x)) as [p|]; [|discriminate]. cbn [obind].
      destruct (resource_of fuel s c) as [q|]; [|discriminate]. cbn [obind].
      intro E. rewrite (Hend _ _ _ E). now destruct c.
  Qed.
  Lemma inverseRemove_erase s x y id : refines (inverseRemoveA M fuel s x y id) (inverseRemove M s x y id).
  Proof.
    unfold inverseRemoveA, inverseRemove. destruct (id >=? 0); [|apply bsc_erase].
    unfold basicInverseRemoveA, basicInverseRemove. destruct (feature_at M x id) as [f|]; [|apply refines_none]. cbn [obind].
    destruct (f_many M f); [apply refines_lift|]. destruct (isContainer M f); [apply bsc_erase|apply refines_just].
  Qed.
  Lemma removeFromContainer_erase s x : refines (removeFromContainerA M fuel s x) (removeFromContainer M s x).
  Proof.
    unfold removeFromContainerA, removeFromContainer. cbv zeta. destruct (container s x) as [c|]; [|apply refines_just].
    destruct (containerFeatureID s x >=? 0); [|apply inverseRemove_erase].
    destruct (feature_at M x _) as [g|]; [|apply refines_just]. destruct (f_opp M g) as [f|]; [|apply refines_just].
    apply inverseRemove_erase.
  Qed.
  Lemma inverseAdd_erase s x y id : refines (inverseAddA M fuel s x y id) (inverseAdd M s x y id).
  Proof.
    unfold inverseAddA, inverseAdd. destruct (id >=? 0).
    2: { apply refines_bind; [apply removeFromContainer_erase|]. intro. apply bsc_erase. }
    unfold basicInverseAddA, basicInverseAdd. destruct (feature_at M x id) as [f|]; [|apply refines_none]. cbn [obind].
    destruct (f_many M f); [apply refines_lift|]. destruct (isContainer M f).
    { apply refines_bind; [apply removeFromContainer_erase|]. intro. apply bsc_erase. }
    apply refines_bind; [|intro; apply refines_just].
    destruct (slot s x f) as [|z l]; [apply refines_just|]. destruct (f_cont M f); [apply inverseRemove_erase|].
    destruct (f_opp M f); [apply inverseRemove_erase|apply refines_just].
  Qed.
  Lemma when_erase v s g g' : (forall x, refines (g x) (g' x)) -> refines (whenA v s g) (when v s g').
  Proof. intro H. destruct v; cbn [whenA when]; [apply H|apply refines_just]. Qed.

  Lemma eSet_erase s o f v : refines (eSetA M fuel s o f v) (eSet M s o f v).
  Proof.
    unfold eSetA, eSet. cbv zeta. destruct (isContainer M f).
    { match goal with |- context [if ?b then _ else _] => destruct b end; [|apply refines_just].
      apply refines_bind; [apply when_erase; intro; apply removeFromContainer_erase|]. intro s1.
      apply refines_bind; [|intro; apply bsc_erase].
      apply when_erase. intro c. destruct (f_opp M f); [apply inverseAdd_erase|apply refines_none]. }
    destruct (isBidirectional M f || f_cont M f); [|apply refines_just].
    destruct (some_eqb _ v); [apply refines_just|]. apply refines_bind; [|intro; apply refines_just].
    destruct (f_opp M f) as [g|]; (apply refines_bind; [apply when_erase; intro; apply inverseRemove_erase|]);
      intro; apply when_erase; intro; apply inverseAdd_erase.
  Qed.
  Lemma eUnset_erase s o f : refines (eUnsetA M fuel s o f) (eUnset M s o f).
  Proof.
    unfold eUnsetA, eUnset. cbv zeta. destruct (isContainer M f).
    { destruct (container s o); [|apply refines_just].
      apply refines_bind; [apply removeFromContainer_erase|]. intro. apply bsc_erase. }
    destruct (isBidirectional M f || f_cont M f); [|apply refines_just].
    apply refines_bind; [|intro; apply refines_just]. apply when_erase. intro y.
    destruct (f_opp M f); apply inverseRemove_erase.
  Qed.
  Lemma fold_erase g g' l : (forall s x, refines (g s x) (g' s x)) -> forall s, refines (foldA g l s) (foldM g' l s).
  Proof.
    intro H. induction l as [|x l IH]; intro s; cbn [foldA foldM]; [apply refines_just|].
    apply refines_bind; [apply H|apply IH].
  Qed.
  Lemma listInverseAdd_erase s o f x : refines (listInverseAddA M fuel s o f x) (listInverseAdd M s o f x).
  Proof.
    unfold listInverseAddA, listInverseAdd. destruct (f_opp M f); [apply inverseAdd_erase|].
    destruct (f_cont M f); [apply inverseAdd_erase|apply refines_just].
  Qed.
  Lemma listInverseRemove_erase s o f x : refines (listInverseRemoveA M fuel s o f x) (listInverseRemove M s o f x).
  Proof.
    unfold listInverseRemoveA, listInverseRemove. destruct (f_opp M f); [apply inverseRemove_erase|].
    destruct (f_cont M f); [apply inverseRemove_erase|apply refines_just].
  Qed.
  Lemma listOp_erase s o f p : refines (listOpA M fuel s o f p) (listOp M s o f p).
  Proof.
    unfold listOpA, listOp. destruct (list_effect _ _) as [[[st R] A]|]; [|apply refines_none]. cbn [obind].
    apply refines_bind; [apply fold_erase; intros; apply listInverseRemove_erase|].
    intro s1. apply fold_erase. intros. apply listInverseAdd_erase.
  Qed.
  Lemma eSetResource_erase s x r : refines (eSetResourceA M fuel s x r) (eSetResource M s x r).
  Proof.
    unfold eSetResourceA, eSetResource. apply refines_bind.
    { destruct (internalResource s x), r; try apply refines_just. intros s' es E.
      apply bindA_inv in E as (s1 & e1 & e2 & E1 & E2 & _). apply refines_lift in E1. apply detached_refines in E2. congruence. }
    intro s1. apply refines_bind; [|intro; apply refines_just].
    destruct (container s1 x) as [c|]; [|apply refines_just].
    destruct (eContainmentFeature M x c _) as [f|]; [|apply refines_none]. cbn [obind].
    destruct (f_resolve M f).
    { destruct (eResource fuel s1 c) as [[q|]|]; [|apply refines_just|apply refines_none].
      destruct r, (internalResource s x); first [apply attached_refines|apply detached_refines|apply refines_just]. }
    apply refines_bind; [apply removeFromContainer_erase|]. intro. apply bsc_erase.
  Qed.
  Lemma contentsInverseAdd_erase s r x : refines (contentsInverseAddA M fuel s r x) (eSetResource M s x (Some r)).
  Proof.
    intros s' es E. apply bindA_inv in E as (s1 & e1 & e2 & E1 & E2 & _).
    apply attached_refines in E2. injection E2 as <-. exact (eSetResource_erase _ _ _ _ _ E1).
  Qed.
  Lemma contentsInverseRemove_erase s r x : refines (contentsInverseRemoveA M fuel s r x) (eSetResource M s x None).
  Proof.
    intros s' es E. apply bindA_inv in E as (s1 & e1 & e2 & E1 & E2 & _).
    apply detached_refines in E1. injection E1 as <-. exact (eSetResource_erase _ _ _ _ _ E2).
  Qed.
  Lemma contentsOp_erase s r p : refines (contentsOpA M fuel s r p) (contentsOp M s r p).
  Proof.
    unfold contentsOpA, contentsOp. destruct (list_effect _ _) as [[[st R] A]|]; [|apply refines_none]. cbn [obind].
    apply refines_bind; [apply fold_erase; intros; apply contentsInverseRemove_erase|].
    intro s1. apply fold_erase. intros. apply contentsInverseAdd_erase.
  Qed.

  Lemma gstepA_erase s p : refines (gstepA M fuel s p) (gstep M s p).
  Proof.
    destruct p as [o f v|o f|o f p|r p|r]; cbn [gstepA gstep].
    - destruct (accessed M o f); [apply eSet_erase|apply refines_none].
    - destruct (accessed M o f); [apply eUnset_erase|apply refines_none].
    - destruct (accessed M o f); [apply listOp_erase|apply refines_none].
    - apply contentsOp_erase.
    - unfold unloadA. destruct (unload s r); [|apply refines_none]. intros s' es E. injection E as <- _. reflexivity.
  Qed.
End Erase.
