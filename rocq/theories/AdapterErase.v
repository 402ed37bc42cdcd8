From Verif Require Import Base ListModel NotifyModel GraphModel AdapterModel.

(** The calls with notifications compute the same states as those of [GraphModel]. *)
Definition erase (m : edit) : option state := option_map fst m.

Lemma erase_bind m k : erase (bindE m k) = obind (erase m) (fun s => erase (k s)).
Proof. destruct m as [[s es]|]; cbn; [|reflexivity]. destruct (k s) as [[s' es']|]; reflexivity. Qed.
Lemma erase_emit s es : erase (emit s es) = s.
Proof. now destruct s. Qed.

Section Erase.
  Context (M : metamodel) (req : notifier -> bool).

  Lemma obind_ext {A B} (m m' : option A) (k k' : A -> option B) : m = m' -> (forall x, k x = k' x) -> obind m k = obind m' k'.
  Proof. intros -> H. destruct m'; cbn; auto. Qed.

  Lemma basicSetContainer_erase s x c id :
    erase (basicSetContainerE M req s x c id) = basicSetContainer M s x c id.
  Proof.
    unfold basicSetContainerE, basicSetContainer. rewrite erase_bind. apply obind_ext; [|reflexivity].
    destruct (internalResource s x) as [r|], c as [c|]; try reflexivity.
    destruct (eContainmentFeature M x c id) as [f|]; [|reflexivity]. cbn [obind].
    destruct (negb (f_resolve M f)); [|reflexivity]. rewrite erase_bind. apply obind_ext; [|reflexivity].
    apply erase_emit.
  Qed.
  Lemma inverseRemove_erase s x y id : erase (inverseRemoveE M req s x y id) = inverseRemove M s x y id.
  Proof.
    unfold inverseRemoveE, inverseRemove. destruct (id >=? 0); [|apply basicSetContainer_erase].
    unfold basicInverseRemoveE, basicInverseRemove. destruct (feature_at M x id) as [f|]; [|reflexivity]. cbn [obind].
    destruct (f_many M f); [apply erase_emit|]. destruct (isContainer M f); [apply basicSetContainer_erase|reflexivity].
  Qed.
  Lemma removeFromContainer_erase s x : erase (removeFromContainerE M req s x) = removeFromContainer M s x.
  Proof.
    unfold removeFromContainerE, removeFromContainer. cbv zeta. destruct (container s x) as [c|]; [|reflexivity].
    destruct (containerFeatureID s x >=? 0); [|apply inverseRemove_erase].
    destruct (feature_at M x _) as [g|]; [|reflexivity]. destruct (f_opp M g) as [f|]; [|reflexivity].
    apply inverseRemove_erase.
  Qed.
  Lemma inverseAdd_erase s x y id : erase (inverseAddE M req s x y id) = inverseAdd M s x y id.
  Proof.
    unfold inverseAddE, inverseAdd. destruct (id >=? 0).
    2: { rewrite erase_bind. apply obind_ext; [apply removeFromContainer_erase|].
         intro. apply basicSetContainer_erase. }
    unfold basicInverseAddE, basicInverseAdd. destruct (feature_at M x id) as [f|]; [|reflexivity]. cbn [obind].
    destruct (f_many M f); [apply erase_emit|]. destruct (isContainer M f).
    { rewrite erase_bind. apply obind_ext; [apply removeFromContainer_erase|].
      intro. apply basicSetContainer_erase. }
    rewrite erase_bind. apply obind_ext; [|reflexivity].
    destruct (slot s x f) as [|z l]; [reflexivity|]. destruct (f_cont M f); [apply inverseRemove_erase|].
    destruct (f_opp M f); [apply inverseRemove_erase|reflexivity].
  Qed.
  Lemma when_erase v s g g' : (forall x, erase (g x) = g' x) -> erase (whenE v s g) = when v s g'.
  Proof. intro H. destruct v; cbn [whenE when]; [apply H|reflexivity]. Qed.

  Lemma eSet_erase s o f v : erase (eSetE M req s o f v) = eSet M s o f v.
  Proof.
    unfold eSetE, eSet. cbv zeta. destruct (isContainer M f).
    { match goal with |- context [if ?b then _ else _] => destruct b end; [|reflexivity].
      rewrite erase_bind. apply obind_ext; [apply when_erase; intro; apply removeFromContainer_erase|]. intro s1.
      rewrite erase_bind. apply obind_ext; [|intro; apply basicSetContainer_erase].
      apply when_erase. intro c. destruct (f_opp M f); [apply inverseAdd_erase|reflexivity]. }
    destruct (isBidirectional M f || f_cont M f); [|reflexivity].
    destruct (some_eqb _ v); [reflexivity|]. rewrite erase_bind. apply obind_ext; [|reflexivity].
    destruct (f_opp M f) as [g|]; rewrite erase_bind; (apply obind_ext; [apply when_erase; intro; apply inverseRemove_erase|]);
      intro; apply when_erase; intro; apply inverseAdd_erase.
  Qed.
  Lemma eUnset_erase s o f : erase (eUnsetE M req s o f) = eUnset M s o f.
  Proof.
    unfold eUnsetE, eUnset. cbv zeta. destruct (isContainer M f).
    { destruct (container s o); [|reflexivity]. rewrite erase_bind.
      apply obind_ext; [apply removeFromContainer_erase|]. intro. apply basicSetContainer_erase. }
    destruct (isBidirectional M f || f_cont M f); [|reflexivity].
    rewrite erase_bind. apply obind_ext; [|reflexivity]. apply when_erase. intro y.
    destruct (f_opp M f); apply inverseRemove_erase.
  Qed.
  Lemma fold_erase g g' l : (forall s x, erase (g s x) = g' s x) -> forall s, erase (foldE g l s) = foldM g' l s.
  Proof.
    intro H. induction l as [|x l IH]; intro s; cbn [foldE foldM]; [reflexivity|].
    rewrite erase_bind. apply obind_ext; [apply H|apply IH].
  Qed.
  Lemma listInverseAdd_erase s o f x : erase (listInverseAddE M req s o f x) = listInverseAdd M s o f x.
  Proof.
    unfold listInverseAddE, listInverseAdd. destruct (f_opp M f); [apply inverseAdd_erase|].
    destruct (f_cont M f); [apply inverseAdd_erase|reflexivity].
  Qed.
  Lemma listInverseRemove_erase s o f x : erase (listInverseRemoveE M req s o f x) = listInverseRemove M s o f x.
  Proof.
    unfold listInverseRemoveE, listInverseRemove. destruct (f_opp M f); [apply inverseRemove_erase|].
    destruct (f_cont M f); [apply inverseRemove_erase|reflexivity].
  Qed.
  Lemma last_erase m es : erase (let+ s2 := m in Some (s2, es)) = erase m.
  Proof. destruct m as [[s e]|]; reflexivity. Qed.
  Lemma listOp_erase s o f p : erase (listOpE M req s o f p) = listOp M s o f p.
  Proof.
    unfold listOpE, listOp. destruct (list_effect _ _) as [[[st R] A]|]; [|reflexivity]. cbn [obind].
    rewrite erase_bind. apply obind_ext; [apply fold_erase; intros; apply listInverseRemove_erase|].
    intro s1. rewrite last_erase. apply fold_erase. intros. apply listInverseAdd_erase.
  Qed.
  Lemma eSetResource_erase s x r : erase (eSetResourceE M req s x r) = eSetResource M s x r.
  Proof.
    unfold eSetResourceE, eSetResource. rewrite erase_bind. apply obind_ext.
    { destruct (internalResource s x), r; try reflexivity. apply erase_emit. }
    intro s1. rewrite erase_bind. apply obind_ext; [|reflexivity].
    destruct (container s1 x) as [c|]; [|reflexivity].
    destruct (eContainmentFeature M x c _) as [f|]; [|reflexivity]. cbn [obind].
    destruct (f_resolve M f); [reflexivity|]. rewrite erase_bind.
    apply obind_ext; [apply removeFromContainer_erase|]. intro. apply basicSetContainer_erase.
  Qed.
  Lemma contentsOp_erase s r p : erase (contentsOpE M req s r p) = contentsOp M s r p.
  Proof.
    unfold contentsOpE, contentsOp. destruct (list_effect _ _) as [[[st R] A]|]; [|reflexivity]. cbn [obind].
    rewrite erase_bind. apply obind_ext; [apply fold_erase; intros; apply eSetResource_erase|].
    intro s1. rewrite last_erase. apply fold_erase. intros. apply eSetResource_erase.
  Qed.

  Lemma gstepE_erase s p : erase (gstepE M req s p) = gstep M s p.
  Proof.
    destruct p as [o f v|o f|o f p|r p|r]; cbn [gstepE gstep].
    - destruct (accessed M o f); [apply eSet_erase|reflexivity].
    - destruct (accessed M o f); [apply eUnset_erase|reflexivity].
    - destruct (accessed M o f); [apply listOp_erase|reflexivity].
    - apply contentsOp_erase.
    - apply erase_emit.
  Qed.
End Erase.
