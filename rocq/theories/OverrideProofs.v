(** Proofs about operations that override others. *)
From Verif Require Import Base OverrideModel OverrideSpec.

Lemma collect_in {A} (f : nat -> option (list A)) l r x : collect f l = Some r -> In x r <-> exists c a, In c l /\ f c = Some a /\ In x a.
Proof.
  revert r. induction l as [|c l IH]; intros r; cbn.
  - intros [= <-]. split; [contradiction|intros (? & ? & [] & _)].
  - destruct (f c) as [a|] eqn:E; cbn; [|discriminate]. destruct (collect f l) as [b|] eqn:F; cbn; [|discriminate]. intros [= <-].
    rewrite in_app_iff, (IH b eq_refl). split.
    + intros [X|(c' & a' & X & Y & Z)]; [exists c, a; auto|exists c', a'; auto].
    + intros (c' & a' & [<-|X] & Y & Z); [left; congruence|right; exists c', a'; auto].
Qed.
Lemma collect_some {A} (f : nat -> option (list A)) l : (forall c, In c l -> exists a, f c = Some a) -> exists r, collect f l = Some r.
Proof.
  induction l as [|c l IH]; intro K; cbn; [eauto|]. destruct (K c (or_introl eq_refl)) as [a ->]. destruct IH as [b ->]; [intros; apply K; now right|]. cbn. eauto.
Qed.
Lemma supers_above h fuel : forall c l, allSuperTypes h fuel c = Some l -> forall a, In a l <-> above h a c.
Proof.
  induction fuel as [|f IH]; intros c l; cbn; [discriminate|]. destruct (collect (allSuperTypes h f) (supers h c)) as [r|] eqn:E; cbn; [|discriminate].
  intros [= <-] a. rewrite in_app_iff, (collect_in _ _ _ a E). split.
  - intros [(b & m & X & Y & Z)|X]; [|now apply above_direct]. eapply above_step; [apply (IH b m Y a), Z|exact X].
  - intro X. inversion X as [? ? Y|? b ? Y Z]; subst; [now right|]. left.
    assert (K : exists m, allSuperTypes h f b = Some m).
    { clear - E Z. revert r E. induction (supers h c) as [|x l IHl]; intros r E; [contradiction|]. cbn in E.
      destruct (allSuperTypes h f x) as [m|] eqn:F; cbn in E; [|discriminate]. destruct (collect (allSuperTypes h f) l) as [r'|]; cbn in E; [|discriminate].
      destruct Z as [<-|Z]; [eauto|]. exact (IHl Z r' eq_refl). }
    destruct K as [m Em]. exists b, m. split; [exact Z|]. split; [exact Em|]. now apply (IH b m Em).
Qed.
Lemma supers_total h rank : (forall a b, In a (supers h b) -> (rank a < rank b)%nat) -> forall fuel c, (rank c < fuel)%nat -> exists l, allSuperTypes h fuel c = Some l.
Proof.
  intro R. induction fuel as [|f IH]; intros c L; [lia|]. cbn. destruct (collect_some (allSuperTypes h f) (supers h c)) as [r ->].
  - intros a Ha. apply IH. specialize (R a c Ha). lia.
  - cbn. eauto.
Qed.
Lemma opers_total h rank : (forall a b, In a (supers h b) -> (rank a < rank b)%nat) -> forall fuel c, (rank c < fuel)%nat -> exists l, allOperations h fuel c = Some l.
Proof.
  intro R. induction fuel as [|f IH]; intros c L; [lia|]. cbn. destruct (collect_some (allOperations h f) (supers h c)) as [r ->].
  - intros a Ha. apply IH. specialize (R a c Ha). lia.
  - cbn. eauto.
Qed.
Lemma sameTypes_eq l : forall m, length l = length m -> sameTypes l m = true <-> l = m.
Proof.
  induction l as [|x l IH]; intros [|y m] L; cbn in *; try discriminate; [tauto|]. destruct (Nat.eqb_spec x y) as [E|N].
  - subst y. rewrite IH by lia. split; [congruence|now intros [= ->]].
  - split; [discriminate|intros [= X _]; contradiction].
Qed.
Lemma isOverrideOf_ok h fuel p o : ranked h fuel -> isOverrideOf h fuel p o = true <-> replaces h p o.
Proof.
  intros (rank & R & L). unfold isOverrideOf, replaces. destruct (owner h o) as [a|]; [|split; [discriminate|intros (? & ? & [=] & _)]].
  assert (S : isSuperTypeOf h fuel a (owner h p) = true <-> exists b, owner h p = Some b /\ at_or_above h a b).
  { unfold isSuperTypeOf, at_or_above. destruct (owner h p) as [b|]; [|split; [discriminate|intros (? & [=] & _)]].
    destruct (supers_total h rank R fuel b (L b)) as [l El]. rewrite El, orb_true_iff, Nat.eqb_eq, existsb_exists. split.
    - intros [X|(x & X & Y)]; exists b; [auto|]. apply Nat.eqb_eq in Y. subst x. split; [reflexivity|]. right. now apply (supers_above h fuel b l El).
    - intros (b' & [= <-] & [X|X]); [auto|]. right. exists a. split; [now apply (supers_above h fuel b l El)|apply Nat.eqb_refl]. }
  unfold same_signature. destruct (isSuperTypeOf h fuel a (owner h p)) eqn:E; cbn.
  - destruct (proj1 S eq_refl) as (b & Eb & Ab). destruct (Nat.eqb_spec (opname h o) (opname h p)) as [N|N].
    + destruct (Nat.eqb_spec (length (params h p)) (length (params h o))) as [Ln|Ln].
      * rewrite sameTypes_eq by exact Ln. split; [intro X; exists a, b; auto|intros (? & ? & _ & _ & _ & _ & X); exact X].
      * split; [discriminate|]. intros (? & ? & _ & _ & _ & _ & X). congruence.
    + split; [discriminate|]. intros (? & ? & _ & _ & _ & X & _). congruence.
  - split; [discriminate|]. intros (a' & b & [= <-] & Eb & Ab & _). enough (false = true) by discriminate. apply S. eauto.
Qed.

(** what the map has for an operation *)
Fixpoint entry (ov : nat -> nat -> bool) (l : list nat) (o : nat) : option nat :=
  match l with
  | [] => None
  | x :: rest => match entry ov rest o with Some p => Some p | None => if (x =? o)%nat then find (fun p => ov p o) rest else None end
  end.
Lemma fold_find (ov : nat -> nat -> bool) x l : forall (m : nat -> option nat) o, fold_left (fun m oj => if ov oj x then mapPut m x oj else m) (rev l) m o
  = if (o =? x)%nat then match find (fun p : nat => ov p x) l with Some p => Some p | None => m o end else m o.
Proof.
  induction l as [|y l IH]; intros m o; cbn; [now destruct (o =? x)%nat|]. rewrite fold_left_app. cbn. destruct (ov y x).
  - unfold mapPut at 1. destruct (o =? x)%nat eqn:E; [reflexivity|]. rewrite IH, E. reflexivity.
  - apply IH.
Qed.
Lemma overrideMap_entry ov l : forall m o, overrideMap ov l m o = match entry ov l o with Some p => Some p | None => m o end.
Proof.
  induction l as [|x l IH]; intros m o; cbn; [reflexivity|]. rewrite IH. destruct (entry ov l o); [reflexivity|]. rewrite fold_find, (Nat.eqb_sym o x).
  destruct (Nat.eqb_spec x o) as [E|N]; [subst x; reflexivity|reflexivity].
Qed.
Lemma entry_some ov l o p : entry ov l o = Some p -> exists l1 l2, l = l1 ++ o :: l2 /\ In p l2 /\ ov p o = true.
Proof.
  induction l as [|x l IH]; cbn; [discriminate|]. destruct (entry ov l o) as [q|].
  - intros [= ->]. destruct (IH eq_refl) as (l1 & l2 & -> & X). exists (x :: l1), l2. auto.
  - destruct (Nat.eqb_spec x o) as [E|N]; [|discriminate]. subst x. intro F. apply find_some in F as [X Y]. exists [], l. auto.
Qed.
Lemma entry_none ov l o : entry ov l o = None -> forall l1 l2 p, l = l1 ++ o :: l2 -> In p l2 -> ov p o = false.
Proof.
  induction l as [|x l IH]; cbn; intros E l1 l2 p S I; [destruct l1; discriminate|]. destruct (entry ov l o); [discriminate|].
  destruct l1 as [|y l1]; injection S as -> S.
  - subst l. rewrite Nat.eqb_refl in E. exact (find_none _ _ E p I).
  - exact (IH eq_refl l1 l2 p S I).
Qed.
Lemma entry_first ov l1 l2 o : NoDup (l1 ++ o :: l2) -> entry ov (l1 ++ o :: l2) o = find (fun p => ov p o) l2.
Proof.
  assert (Z : forall l, ~ In o l -> entry ov l o = None).
  { induction l as [|x l IH]; cbn; intro N; [reflexivity|]. rewrite IH by tauto. destruct (Nat.eqb_spec x o) as [E|_]; [tauto|reflexivity]. }
  induction l1 as [|x l1 IH]; cbn; intro N; inversion N as [|? ? Nx Nl]; subst.
  - rewrite (Z l2 Nx), Nat.eqb_refl. reflexivity.
  - rewrite (IH Nl). destruct (find (fun p => ov p o) l2); [reflexivity|]. destruct (Nat.eqb_spec x o) as [E|_]; [|reflexivity].
    exfalso. apply Nx. subst x. apply in_or_app. right. now left.
Qed.

(** operations of a class come after those of the classes above it *)
Lemma collect_split {A} (f : nat -> option (list A)) l r c a : collect f l = Some r -> In c l -> f c = Some a -> exists r1 r2, r = r1 ++ a ++ r2.
Proof.
  revert r. induction l as [|x l IH]; intros r E I F; [contradiction|]. cbn in E. destruct (f x) as [b|] eqn:Fx; cbn in E; [|discriminate].
  destruct (collect f l) as [r'|] eqn:C; cbn in E; [|discriminate]. injection E as <-. destruct I as [<-|I].
  - exists [], r'. cbn. congruence.
  - destruct (IH r' eq_refl I F) as (r1 & r2 & ->). exists (b ++ r1), r2. now rewrite app_assoc.
Qed.
Lemma ops_below h fuel : forall c l x, allOperations h fuel c = Some l -> In x l -> exists b, (b = c \/ above h b c) /\ In x (opers h b).
Proof.
  induction fuel as [|f IH]; intros c l x; cbn; [discriminate|]. destruct (collect (allOperations h f) (supers h c)) as [r|] eqn:E; cbn; [|discriminate].
  intros [= <-] I. apply in_app_iff in I as [I|I]; [|exists c; auto]. apply (collect_in _ _ _ x E) in I as (d & m & Hd & Em & Hx).
  destruct (IH d m x Em Hx) as (b & [->|B] & O); [exists d; split; [right; now apply above_direct|exact O]|].
  exists b. split; [right; eapply above_step; eassumption|exact O].
Qed.
Lemma ops_above h rank : (forall a b, In a (supers h b) -> (rank a < rank b)%nat) ->
  forall fuel c l a x, (rank c < fuel)%nat -> allOperations h fuel c = Some l -> above h a c -> In x (opers h a) ->
  exists r, collect (allOperations h (pred fuel)) (supers h c) = Some r /\ l = r ++ opers h c /\ In x r.
Proof.
  intro R. induction fuel as [|f IH]; intros c l a x L; cbn; [lia|]. destruct (collect (allOperations h f) (supers h c)) as [r|] eqn:E; cbn; [|discriminate].
  intros [= <-] A X. exists r. split; [reflexivity|]. split; [reflexivity|]. apply (collect_in _ _ _ x E).
  inversion A as [? ? Y|? b ? Y Z]; subst.
  - destruct (opers_total h rank R f a) as [m Em]; [specialize (R a c Y); lia|]. exists a, m. split; [exact Y|]. split; [exact Em|].
    destruct f as [|f']; cbn in Em; [discriminate|]. destruct (collect (allOperations h f') (supers h a)); cbn in Em; [|discriminate].
    injection Em as <-. apply in_or_app. now right.
  - assert (Lb : (rank b < f)%nat) by (specialize (R b c Z); lia). destruct (opers_total h rank R f b Lb) as [m Em]. exists b, m.
    split; [exact Z|]. split; [exact Em|]. destruct (IH b m a x Lb Em Y X) as (r' & _ & -> & I). apply in_or_app. now left.
Qed.
Lemma before h rank : (forall a b, In a (supers h b) -> (rank a < rank b)%nat) -> forall fuel c l a b o p, (rank c < fuel)%nat ->
  allOperations h fuel c = Some l -> above h a b -> In o (opers h a) -> In p (opers h b) -> b = c \/ above h b c ->
  exists l1 l2, l = l1 ++ o :: l2 /\ In p l2.
Proof.
  intro R. induction fuel as [|f IH]; intros c l a b o p L E A O P B; [lia|]. destruct B as [->|B].
  - destruct (ops_above h rank R (S f) c l a o L E A O) as (r & _ & -> & I). apply in_split in I as (r1 & r2 & ->).
    exists r1, (r2 ++ opers h c). rewrite <- app_assoc. split; [reflexivity|]. apply in_or_app. now right.
  - cbn in E. destruct (collect (allOperations h f) (supers h c)) as [r|] eqn:Ec; cbn in E; [|discriminate]. injection E as <-.
    assert (K : exists d, In d (supers h c) /\ (b = d \/ above h b d)) by (inversion B; subst; eauto). destruct K as (d & Hd & Bd).
    assert (Ld : (rank d < f)%nat) by (specialize (R d c Hd); lia). destruct (opers_total h rank R f d Ld) as [m Em].
    destruct (IH d m a b o p Ld Em A O P Bd) as (m1 & m2 & -> & I). destruct (collect_split _ _ _ _ _ Ec Hd Em) as (r1 & r2 & ->).
    exists (r1 ++ m1), (m2 ++ r2 ++ opers h c). rewrite <- !app_assoc. split; [reflexivity|]. apply in_or_app. now left.
Qed.
Lemma first_found {A} (f : A -> bool) l p : find f l = Some p -> exists m1 m2, l = m1 ++ p :: m2 /\ f p = true /\ forall q, In q m1 -> f q = false.
Proof.
  induction l as [|x l IH]; cbn; [discriminate|]. destruct (f x) eqn:E.
  - intros [= <-]. exists [], l. split; [reflexivity|]. split; [exact E|contradiction].
  - intro F. destruct (IH F) as (m1 & m2 & -> & V & W). exists (x :: m1), m2. split; [reflexivity|]. split; [exact V|]. intros q [<-|Q]; auto.
Qed.
