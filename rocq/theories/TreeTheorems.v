(** C16, C46, C55: containment traversals. *)
From Verif Require Import Base TreeModel TreeSpec TreeProofs.

(** *** C16: whatever the pattern of HasNext and Next calls, the iterator answers as the preorder of the tree
    (Next beyond the end panics). *)
Theorem C16_tree_iterator_preorder :
  forall (children : nat -> list nat) (o : nat) (isRoot : bool) l calls,
  preorder children (children o) l ->
  trun children (newTreeIterator o isRoot) calls = answers (if isRoot then o :: l else l) calls.
Proof. exact tree_iterator. Qed.
Print Assumptions C16_tree_iterator_preorder.

(** The preorder contains every direct or indirect content, and nothing else. *)
Theorem C16_preorder_complete :
  forall (children : nat -> list nat) o l, preorder children (children o) l ->
  forall x, In x l <-> inside children o x.
Proof.
  intros children o l H x. rewrite (preorder_in children _ _ H). split.
  - intros [Hx|(y & Hy & Hx)]; [now constructor | eapply inside_trans; [constructor; exact Hy | exact Hx]].
  - apply inside_inv.
Qed.
Print Assumptions C16_preorder_complete.

(** Each of them once, when every object has one place in one container. *)
Theorem C16_preorder_once :
  forall children : nat -> list nat,
  (forall x, NoDup (children x)) -> (forall x y z, In z (children x) -> In z (children y) -> x = y) ->
  forall o l, preorder children (children o) l -> NoDup l.
Proof. exact preorder_once. Qed.
Print Assumptions C16_preorder_once.

(** Every object comes after its container. *)
Theorem C16_parents_first :
  forall (children : nat -> list nat) o l, preorder children (children o) l ->
  forall l1 y l2, l = l1 ++ y :: l2 -> In y (children o) \/ exists x, In x l1 /\ In y (children x).
Proof. intros children o. exact (preorder_parents children (children o)). Qed.
Print Assumptions C16_parents_first.

(** The order is determined by the order of contents, and a finite traversal means there is no cycle. *)
Theorem C16_preorder_unique :
  forall (children : nat -> list nat) o l l', preorder children (children o) l -> preorder children (children o) l' ->
  l = l' /\ ~ inside children o o.
Proof. intros children o l l' H H'. split; [exact (preorder_det children _ _ H _ H') | exact (no_cycle children o l H)]. Qed.
Print Assumptions C16_preorder_unique.

(** *** C55: the contents of an object (and its cross references), read through their iterator with any pattern
    of calls, are the values of the listed features that are set, in feature order. *)
Theorem C55_contents_iterator :
  forall (isMany isSet : nat -> bool) valueList valueSingle (resolve : nat -> nat) fs calls,
  crun isMany isSet valueList valueSingle resolve (cIterator fs) calls =
  answers (map resolve (contents_of isMany isSet valueList valueSingle fs)) calls.
Proof. exact contents_iterator. Qed.
Print Assumptions C55_contents_iterator.

(** Size, Empty, Get and the loops of ToArray, Contains, IndexOf and All agree with it. *)
Theorem C55_contents_queries :
  forall (isMany isSet : nat -> bool) valueList valueSingle (resolve : nat -> nat) fs,
  let l := contents_of isMany isSet valueList valueSingle fs in
  cSize isMany isSet valueList valueSingle fs = zlen l /\
  cEmpty isMany isSet valueList valueSingle fs = (zlen l =? 0) /\
  (forall n, cGet isMany isSet valueList valueSingle resolve fs n = nth_error (map resolve l) n) /\
  (forall fuel, (length l <= fuel)%nat ->
     cLoop isMany isSet valueList valueSingle resolve fuel (cIterator fs) = Some (map resolve l)).
Proof.
  intros isMany isSet valueList valueSingle resolve fs l.
  split; [apply (cSize_ok _ _ _ _ resolve)|].
  split; [apply (cEmpty_ok _ _ _ _ resolve)|]. split.
  - intro n. apply cGet_ok. reflexivity.
  - intros fuel H. apply cLoop_ok; [reflexivity|]. now rewrite map_length.
Qed.
Print Assumptions C55_contents_queries.

(** *** C46: the class-filtered traversal delivers only contained instances of the class. *)
Theorem C46_class_filter_sound_partial :
  forall containments refType value objClass (sub : nat -> nat -> Prop) fuel o endClass l,
  well_typed refType value objClass sub ->
  EAllContentsWithClass containments refType value fuel objClass o endClass = Some l ->
  forall y, In y l -> part_inside containments value o y /\ sub (objClass y) endClass.
Proof. exact class_filter_sound. Qed.
Print Assumptions C46_class_filter_sound_partial.

(** It is not complete.  (1) Nothing is found below an object of the class itself.  (2) When a reference of an object is
    unset, its other references are not visited.  (3) Instances behind a reference typed by a superclass are missed.
    (4) With cyclic containment between classes, objects reached through the cycle are missed. *)
Theorem C46_own_class_refuted :
  exists containments refType value objClass,
    In 2%nat (value 1%nat 0%nat) /\ objClass 2%nat = 0%nat /\ objClass 1%nat = 0%nat /\
    EAllContentsWithClass containments refType value 20 objClass 1%nat 0%nat = Some [].
Proof.
  exists (fun _ => [0%nat]), (fun _ => 0%nat), (fun o r => if Nat.eqb o 1 then [2%nat] else []), (fun _ => 0%nat).
  vm_compute. auto.
Qed.
Print Assumptions C46_own_class_refuted.

Theorem C46_unset_reference_refuted :
  exists containments refType value objClass,
    In 0%nat (containments (objClass 1%nat)) /\ refType 0%nat = 1%nat /\ In 2%nat (value 1%nat 0%nat) /\ objClass 2%nat = 1%nat /\
    EAllContentsWithClass containments refType value 20 objClass 1%nat 1%nat = Some [].
Proof.
  exists (fun c => if Nat.eqb c 0 then [0%nat; 1%nat] else []), (fun _ => 1%nat),
    (fun o r => if Nat.eqb o 1 && Nat.eqb r 0 then [2%nat] else []), (fun o => if Nat.eqb o 1 then 0%nat else 1%nat).
  vm_compute. auto 10.
Qed.
Print Assumptions C46_unset_reference_refuted.

Theorem C46_subclass_refuted :
  exists containments refType value objClass (sub : nat -> nat -> Prop),
    well_typed refType value objClass sub /\ In 0%nat (containments (objClass 1%nat)) /\ In 2%nat (value 1%nat 0%nat) /\
    objClass 2%nat = 2%nat /\
    EAllContentsWithClass containments refType value 20 objClass 1%nat 2%nat = Some [].
Proof.
  exists (fun c => if Nat.eqb c 0 then [0%nat] else []), (fun _ => 1%nat),
    (fun o r => if Nat.eqb o 1 && Nat.eqb r 0 then [2%nat] else []), (fun o => if Nat.eqb o 1 then 0%nat else 2%nat),
    (fun c d => c = d \/ (c = 2%nat /\ d = 1%nat)).
  split; [|vm_compute; auto 10].
  intros o r x. destruct (Nat.eqb o 1 && Nat.eqb r 0); [|intros []]. intros [<-|[]]. right. auto.
Qed.
Print Assumptions C46_subclass_refuted.

(** classes 0 (root) -> 1 through reference 0; 1 -> 2 through 1, 1 -> 3 through 2; 2 -> 1 through 3 *)
Theorem C46_cycle_refuted :
  exists containments refType value objClass,
    inside (fun o => flat_map (value o) (containments (objClass o))) 10%nat 14%nat /\ objClass 14%nat = 3%nat /\
    EAllContentsWithClass containments refType value 50 objClass 10%nat 3%nat = Some [15%nat].
Proof.
  exists (fun c => match c with 0 => [0] | 1 => [1; 2] | 2 => [3] | _ => [] end)%nat,
    (fun r => match r with 0 => 1 | 1 => 2 | 2 => 3 | _ => 1 end)%nat,
    (fun o r => match o, r with 10, 0 => [11] | 11, 1 => [12] | 12, 3 => [13] | 13, 2 => [14] | 11, 2 => [15] | _, _ => [] end)%nat,
    (fun o => match o with 10 => 0 | 11 | 13 => 1 | 12 => 2 | _ => 3 end)%nat.
  split; [|vm_compute; auto].
  apply (inside_deeper _ _ 13%nat); [|now left].
  apply (inside_deeper _ _ 12%nat); [|now left].
  apply (inside_deeper _ _ 11%nat); [|now left].
  constructor. now left.
Qed.
Print Assumptions C46_cycle_refuted.

(** The order differs as well: references are visited last to first. *)
Theorem C46_order_refuted :
  exists containments refType value objClass l,
    preorder (fun o => flat_map (value o) (containments (objClass o))) [2; 3]%nat l /\ l = [2; 3]%nat /\
    flat_map (value 1%nat) (containments (objClass 1%nat)) = [2; 3]%nat /\
    EAllContentsWithClass containments refType value 20 objClass 1%nat 1%nat = Some [3; 2]%nat.
Proof.
  exists (fun c => match c with 0 => [0; 1] | _ => [] end)%nat, (fun _ => 1%nat),
    (fun o r => match o, r with 1, 0 => [2] | 1, 1 => [3] | _, _ => [] end)%nat,
    (fun o => match o with 1 => 0 | _ => 1 end)%nat, [2; 3]%nat.
  split; [|vm_compute; auto].
  apply (pre_cons _ 2%nat [3%nat] [] [3%nat]); [cbn; constructor|].
  apply (pre_cons _ 3%nat [] [] []); cbn; constructor.
Qed.
Print Assumptions C46_order_refuted.

(** ** Cases *)
Definition case_children (o : nat) : list nat :=
  match o with 1%nat => [2; 3]%nat | 2%nat => [4; 5]%nat | 5%nat => [6]%nat | _ => [] end.
Example C16_case_preorder : preorder case_children (case_children 1%nat) [2; 4; 5; 6; 3]%nat.
Proof.
  apply (pre_cons _ 2%nat [3%nat] [4; 5; 6]%nat [3%nat]).
  - apply (pre_cons _ 4%nat [5%nat] [] [5; 6]%nat); [constructor|].
    apply (pre_cons _ 5%nat [] [6%nat] []); [|constructor]. apply (pre_cons _ 6%nat [] [] []); constructor.
  - apply (pre_cons _ 3%nat [] [] []); constructor.
Qed.
Example C16_case_run :
  trun case_children (newTreeIterator 1%nat false) [TNext; THas; THas; TNext; TNext; TNext; TNext; THas] =
  Some [AObj 2; ABool true; ABool true; AObj 4; AObj 5; AObj 6; AObj 3; ABool false]%nat.
Proof. reflexivity. Qed.
Example C16_case_tree :
  (forall x, NoDup (case_children x)) /\ (forall x y z, In z (case_children x) -> In z (case_children y) -> x = y).
Proof.
  split.
  - intros [|[|[|[|[|[|x]]]]]]; cbn; repeat constructor; cbn; intuition discriminate.
  - intros [|[|[|[|[|[|x]]]]]] [|[|[|[|[|[|y]]]]]] z; cbn; intros H K; try reflexivity; exfalso; intuition (subst; discriminate).
Qed.
Example C46_case :
  EAllContentsWithClass (fun c => match c with 0 => [0] | 1 => [1] | _ => [] end)%nat (fun r => S r)
    (fun o r => match o, r with 10, 0 => [11; 12] | 11, 1 => [13] | 12, 1 => [14; 15] | _, _ => [] end)%nat
    20 (fun o => match o with 10 => 0 | 11 | 12 => 1 | _ => 2 end)%nat 10 2 = Some [13; 14; 15]%nat.
Proof. vm_compute. reflexivity. Qed.
Example C55_case :
  contents_of (fun f => Nat.eqb f 1) (fun f => Nat.ltb f 3) (fun _ => [7; 8]%nat) (fun f => if Nat.eqb f 0 then Some 5%nat else None)
    [0; 1; 2; 3]%nat = [5; 7; 8]%nat.
Proof. reflexivity. Qed.
