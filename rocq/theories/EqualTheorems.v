(** Structural equality: C39, C89. *)
From Verif Require Import Base EqualModel EqualSpec EqualProofs.

(** ** C39: reflexive, symmetric, and equal objects agree on all features *)
(** [all]: GetEAllStructuralFeatures *)
Definition C39_statement : Prop :=
  forall deep F S U n (all : nat -> list feature), (forall p q, deep p q = deep q p) -> closed S U -> well_typed F S -> (length U < n)%nat ->
    (forall c f, In f (ownFeatures F c) -> In f (all c)) ->
    (forall a, In a U -> exists m, equals deep F S n no_match a a = R true m) /\
    (forall a b m, In a U -> In b U -> equals deep F S n no_match a b = R true m -> exists m', equals deep F S n no_match b a = R true m') /\
    (forall a b m f, In a U -> In b U -> equals deep F S n no_match a b = R true m -> proxyURI S a = None -> In f (all (eClass S a)) -> isDerived F f = false ->
       isAttribute F f = true -> eIsSet S a f = eIsSet S b f /\ (eIsSet S a f = true -> same_attribute deep (isMany F f) (eAttr S a f) (eAttr S b f))).

(** two objects of one class whose inherited attribute (feature 0) differs *)
Definition parent_attribute : features := Feats (fun _ => [1%nat]) (fun _ => false) (fun _ => true) (fun _ => false).
Definition two_names : snapshot :=
  Snap (fun _ => O) (fun _ => None) (fun _ _ => true) (fun o f => if (f =? 0)%nat then APrim o else APrim O) (fun _ _ => []).
Theorem C39_refuted : ~ C39_statement.
Proof.
  intro H. destruct (H Nat.eqb parent_attribute two_names [O; 1%nat] 3%nat (fun _ => [O; 1%nat])) as (_ & _ & H3).
  - intros p q. apply Nat.eqb_sym.
  - intros a f b _ [].
  - intros a f _ _ _. cbn. destruct (f =? 0)%nat; reflexivity.
  - cbn. lia.
  - intros c f. cbn. tauto.
  - destruct (H3 O 1%nat _ O ltac:(cbn; tauto) ltac:(cbn; tauto) eq_refl eq_refl ltac:(cbn; tauto) eq_refl eq_refl) as [_ K].
    specialize (K eq_refl). cbn in K. destruct K as [_ K]. discriminate.
Qed.
Print Assumptions C39_refuted.

(** true of the features of the class itself *)
Theorem C39_equals_partial : forall deep F S U n, (forall p q, deep p q = deep q p) -> closed S U -> well_typed F S -> (length U < n)%nat ->
    (forall a, In a U -> exists m, equals deep F S n no_match a a = R true m) /\
    (forall a b m, In a U -> In b U -> equals deep F S n no_match a b = R true m -> exists m', equals deep F S n no_match b a = R true m') /\
    (forall a b m, In a U -> In b U -> equals deep F S n no_match a b = R true m -> a <> b -> proxyURI S a = None ->
       proxyURI S b = None /\ eClass S a = eClass S b /\
       exists M, matching deep F S M /\ M a b /\
         forall f, In f (ownFeatures F (eClass S a)) -> isDerived F f = false -> same_feature deep F S M a b f).
Proof.
  intros deep F S U n Hd HU W Hn. split; [|split].
  - intros a Ha. destruct (equals_exact deep F S Hd U HU n a a W Ha Ha Hn) as (r & m & E & K).
    exists m. rewrite E. f_equal. apply K. exists (@eq obj). split; [|reflexivity].
    split; [congruence|congruence|]. intros x y ->. now left.
  - intros a b m Ha Hb E. destruct (equals_exact deep F S Hd U HU n b a W Hb Ha Hn) as (r & m' & E' & K).
    exists m'. rewrite E'. f_equal. apply K. destruct (equals_sound deep F S Hd n a b m E) as [HM H].
    exists (pairs m). split; [exact HM|]. exact (partner_sym _ _ _ _ HM _ _ H).
  - intros a b m Ha Hb E Hab Pa. destruct (equals_sound deep F S Hd n a b m E) as [HM H].
    destruct (partner_same _ _ _ _ HM a b H) as [K|[(u & H1 & _)|(H1 & H2 & H3 & H4)]]; [contradiction|congruence|].
    split; [exact H2|split; [exact H3|]]. exists (pairs m). split; [exact HM|split; [exact H|exact H4]].
Qed.
Print Assumptions C39_equals_partial.

(** ** C89: what Equals and EqualsAll decide *)
Theorem C89_equals_decides_matching : forall deep F S, (forall p q, deep p q = deep q p) -> forall U, closed S U -> forall n a b,
    well_typed F S -> In a U -> In b U -> (length U < n)%nat ->
    exists r m, equals deep F S n no_match a b = R r m /\ (r = true <-> exists M, matching deep F S M /\ M a b).
Proof. exact equals_exact. Qed.
Print Assumptions C89_equals_decides_matching.
Theorem C89_equals_all_decides_matching : forall deep F S, (forall p q, deep p q = deep q p) -> forall U, closed S U -> forall n l1 l2,
    well_typed F S -> (forall x, In x l1 -> In x U) -> (forall x, In x l2 -> In x U) -> (length U < n)%nat ->
    exists r m, EqualsAll deep F S n l1 l2 = R r m /\ (r = true <-> exists M, matching deep F S M /\ Forall2 M l1 l2).
Proof. exact equals_all_exact. Qed.
Print Assumptions C89_equals_all_decides_matching.

(** equality is not transitive: three objects (0, 1, 2) with lists of two equal objects each, the first
    and the third sharing one of them: [3; 4], [5; 6] and [4; 7] *)
Definition one_list : features := Feats (fun c => match c with O => [O] | _ => [] end) (fun _ => false) (fun _ => false) (fun _ => true).
Definition three_lists : snapshot :=
  Snap (fun o => if (o <? 3)%nat then O else 1%nat) (fun _ => None) (fun o _ => (o <? 3)%nat) (fun _ _ => ANil)
    (fun o _ => match o with O => [3; 4] | 1 => [5; 6] | 2 => [4; 7] | _ => [] end%nat).
Definition answer (r : res) : option bool := match r with R b _ => Some b | _ => None end.
Theorem C89_refuted_transitive :
  answer (equals Nat.eqb one_list three_lists 9 no_match 0 1) = Some true /\
  answer (equals Nat.eqb one_list three_lists 9 no_match 1 2) = Some true /\
  answer (equals Nat.eqb one_list three_lists 9 no_match 0 2) = Some false.
Proof. vm_compute. repeat split. Qed.
Print Assumptions C89_refuted_transitive.
(** an empty list that was read once is set (dynamiceobject_impl.go:72-74), one that was not is not *)
Theorem C89_refuted_read_list :
  let S := Snap (fun _ => O) (fun _ => None) (fun o _ => (o =? 0)%nat) (fun _ _ => ANil) (fun _ _ => []) in
  (forall f, eRefs S 0 f = eRefs S 1 f) /\ answer (equals Nat.eqb one_list S 9 no_match 0 1) = Some false.
Proof. split; [reflexivity|vm_compute; reflexivity]. Qed.
Print Assumptions C89_refuted_read_list.

(** two rings of two objects, one of which is written twice in a list *)
Definition ring : features := Feats (fun _ => [O; 1%nat]) (fun _ => false) (fun f => (f =? 1)%nat) (fun _ => false).
Definition two_rings : snapshot :=
  Snap (fun _ => O) (fun _ => None) (fun o _ => (o <? 4)%nat) (fun o _ => APrim (Nat.modulo o 2))
    (fun o _ => match o with O => [1] | 1 => [0] | 2 => [3] | 3 => [2] | _ => [] end%nat).
Example ex_rings :
  answer (equals Nat.eqb ring two_rings 5 no_match 0 2) = Some true /\
  answer (equals Nat.eqb ring two_rings 5 no_match 0 3) = Some false /\
  answer (EqualsAll Nat.eqb ring two_rings 5 [0; 1]%nat [2; 3]%nat) = Some true /\
  answer (EqualsAll Nat.eqb ring two_rings 5 [0; 0]%nat [2; 3]%nat) = Some false.
Proof. vm_compute. repeat split. Qed.
Example ex_rings_hypotheses : closed two_rings [0; 1; 2; 3]%nat /\ well_typed ring two_rings.
Proof.
  split.
  - intros a f b Ha Hb. cbn in Ha. destruct Ha as [<-|[<-|[<-|[<-|[]]]]]; cbn in Hb; cbn; tauto.
  - intros a f Ha _ _. cbn in Ha |- *. destruct (f =? 1)%nat; [reflexivity|]. intros _.
    destruct a as [|[|[|[|a]]]]; try reflexivity. discriminate.
Qed.
