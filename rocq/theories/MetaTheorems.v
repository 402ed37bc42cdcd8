(** Properties C108-C116: what a metamodel reports about itself. *)
From Coq Require Import String.
From Verif Require Import Base Chars FloatModel LiteralModel MetaModel MetaSpec MetaProofs MetaProofs2 MetaProofs3 MetaExample.
Local Open Scope string_scope.
Local Open Scope list_scope.
Local Open Scope Z_scope.

(** C108: GetEClassifier does not follow changes of names, nor changes made while the package does not deliver *)
Theorem C108_renamed_classifier_refuted :
  ~ (forall create convert h w w' p n, fresh w -> consistent w -> run create convert h w = Some w' ->
       named w' p n (snd (getEClassifier p n w'))).
Proof.
  intros H.
  specialize (H create convert [AskClassifier 0 (lit "A"); Rename 0 (lit "X")] small
    (ran [AskClassifier 0 (lit "A"); Rename 0 (lit "X")]) 0%nat (lit "A") small_fresh small_consistent eq_refl).
  vm_compute in H. destruct H as (l1 & l2 & _ & E & _). discriminate.
Qed.
Print Assumptions C108_renamed_classifier_refuted.
Theorem C108_undelivered_refuted :
  exists create convert h w w' p n c, fresh w /\ consistent w /\ run create convert h w = Some w'
    /\ (forall d m, ~ In (Rename d m) h)
    /\ snd (getEClassifier p n w') = Some c /\ ~ In c (pclassifiers (packages w' p)).
Proof.
  exists create, convert, [AskClassifier 0 (lit "A"); Deliver 0 false; RemoveClassifier 0 0], small,
    (ran [AskClassifier 0 (lit "A"); Deliver 0 false; RemoveClassifier 0 0]), 0%nat, (lit "A"), 0%nat.
  split; [exact small_fresh | ]. split; [exact small_consistent | ]. split; [reflexivity | ]. split.
  - intros d m [F | [F | [F | []]]]; discriminate.
  - split; [vm_compute; reflexivity | ]. vm_compute. intros [F | [F | [F | []]]]; discriminate.
Qed.
Print Assumptions C108_undelivered_refuted.

(** C109: otherwise it finds the classifier that has the name, the last if there are several *)
Theorem C109_classifier_by_name :
  forall create convert h w w' p n,
    fresh w -> Forall keeps_names h -> run create convert h w = Some w' -> named w' p n (snd (getEClassifier p n w')).
Proof. exact classifiers_found. Qed.
Print Assumptions C109_classifier_by_name.
(** whatever has happened before, a change of the list makes it right *)
Theorem C109_right_again :
  forall create convert h1 o h2 w w1 w' p n,
    run create convert h1 w = Some w1 -> pdeliver (packages w1 p) = true -> changes_list p o w1 ->
    Forall keeps_names h2 -> run create convert (o :: h2) w1 = Some w' -> named w' p n (snd (getEClassifier p n w')).
Proof. exact classifiers_found_again. Qed.
Print Assumptions C109_right_again.
Example C109_after_a_move :
  Forall keeps_names [AskClassifier 0 (lit "C"); AddClassifier 0 4; AskClassifier 0 (lit "A"); AddClassifier 1 0]
  /\ snd (getEClassifier 0 (lit "C") (ran [AskClassifier 0 (lit "C"); AddClassifier 0 4; AskClassifier 0 (lit "A"); AddClassifier 1 0])) = Some 4%nat
  /\ snd (getEClassifier 0 (lit "A") (ran [AskClassifier 0 (lit "C"); AddClassifier 0 4; AskClassifier 0 (lit "A"); AddClassifier 1 0])) = None.
Proof. split; [repeat constructor | ]. vm_compute. auto. Qed.
Example C109_after_a_change_of_name :
  changes_list 0 (AddClassifier 0 4) (ran [AskClassifier 0 (lit "A"); Rename 0 (lit "X")])
  /\ snd (getEClassifier 0 (lit "X") (ran [AskClassifier 0 (lit "A"); Rename 0 (lit "X"); AddClassifier 0 4])) = Some 0%nat.
Proof.
  split; [ | vm_compute; reflexivity]. split; [reflexivity | ].
  vm_compute. intros [F | [F | [F | [F | []]]]]; discriminate.
Qed.

(** C110: GetType of ExtendedMetaData finds what is no longer there, does not find what is there, and depends on
    what has been looked for before *)
Theorem C110_types_refuted :
  (exists create convert h w w' w'' p n c, fresh w /\ consistent w /\ run create convert h w = Some w'
     /\ getType p n w' = Some (w'', Some c) /\ ~ In c (pclassifiers (packages w' p)))
  /\ (exists create convert h w w' w'' p n c, fresh w /\ consistent w /\ run create convert h w = Some w'
     /\ (forall d m, ~ In (Rename d m) h) /\ (forall d m, ~ In (Annotate d m) h)
     /\ getType p n w' = Some (w'', None) /\ In c (pclassifiers (packages w' p)) /\ document_name w' c = n)
  /\ (exists create convert h w w' w'' p n, fresh w /\ consistent w /\ run create convert h w = Some w'
     /\ distinct_names w' p /\ pclassifiers (packages w' p) = pclassifiers (packages w p)
     /\ exists r, getType p n w' = Some (w'', r) /\ ~ typed w' p n r)
  /\ (exists create convert h w w1 w2 w1' w2' p m n, fresh w /\ consistent w
     /\ run create convert h w = Some w1 /\ run create convert (h ++ [AskType p m]) w = Some w2
     /\ exists c d, getType p n w1 = Some (w1', Some c) /\ getType p n w2 = Some (w2', Some d) /\ c <> d).
Proof.
  assert (NR : forall h : list op, forallb (fun o => match o with Rename _ _ => false | _ => true end) h = true -> forall d m, ~ In (Rename d m) h).
  { intros h F d m X. rewrite forallb_forall in F. specialize (F _ X). discriminate. }
  assert (NA : forall h : list op, forallb (fun o => match o with Annotate _ _ => false | _ => true end) h = true -> forall d m, ~ In (Annotate d m) h).
  { intros h F d m X. rewrite forallb_forall in F. specialize (F _ X). discriminate. }
  split; [ | split; [ | split]].
  - exists create, convert, [AskType 0 (lit "A"); RemoveClassifier 0 0], small, (ran [AskType 0 (lit "A"); RemoveClassifier 0 0]).
    eexists. exists 0%nat, (lit "A"), 0%nat. split; [exact small_fresh | ]. split; [exact small_consistent | ].
    split; [reflexivity | ]. split; [reflexivity | ]. vm_compute. intros [F | [F | [F | []]]]; discriminate.
  - exists create, convert, [AskType 0 (lit "I"); RemoveClassifier 0 0], small, (ran [AskType 0 (lit "I"); RemoveClassifier 0 0]).
    eexists. exists 0%nat, (lit "S"), 3%nat. split; [exact small_fresh | ]. split; [exact small_consistent | ].
    split; [reflexivity | ]. split; [apply NR; reflexivity | ]. split; [apply NA; reflexivity | ]. split; [reflexivity | ].
    vm_compute. auto.
  - exists create, convert, [AskType 0 (lit "A"); Rename 0 (lit "X")], small, (ran [AskType 0 (lit "A"); Rename 0 (lit "X")]).
    eexists. exists 0%nat, (lit "X"). split; [exact small_fresh | ]. split; [exact small_consistent | ].
    split; [reflexivity | ]. split; [ | split; [reflexivity | ]].
    + vm_compute. repeat constructor; cbn; intuition; discriminate.
    + eexists. split; [reflexivity | ]. intros H. apply (H 0%nat); vm_compute; auto.
  - exists create, convert, [Annotate 1 (Some (lit "A"))], small, (ran [Annotate 1 (Some (lit "A"))]), (ran [Annotate 1 (Some (lit "A")); AskType 0 (lit "S")]).
    eexists. eexists. exists 0%nat, (lit "S"), (lit "A"). split; [exact small_fresh | ]. split; [exact small_consistent | ].
    split; [reflexivity | ]. split; [reflexivity | ]. exists 0%nat, 1%nat. split; [reflexivity | ]. split; [reflexivity | ]. discriminate.
Qed.
Print Assumptions C110_types_refuted.

(** C111: as long as the package only receives classifiers and names do not change, the answer of GetType is right
    whatever is looked for, in whatever order; and it does not panic *)
Theorem C111_types_found :
  forall create convert p (member : nat -> Prop) h w w' n,
    fresh w -> (forall c, In c (pclassifiers (packages w p)) -> member c) ->
    Forall (only_receives p member) h -> Forall keeps_document_names h -> run create convert h w = Some w' ->
    exists w'' r, getType p n w' = Some (w'', r) /\ typed w' p n r.
Proof. exact types_found. Qed.
Print Assumptions C111_types_found.
Example C111_while_growing :
  let h := [AskType 0 (lit "I"); AskType 0 (lit "C"); AddClassifier 0 4; AskName (Cl 4); AddClassifier 1 5] in
  Forall (only_receives 0 (fun c => (c < 5)%nat)) h /\ Forall keeps_document_names h
  /\ option_map snd (getType 0 (lit "C") (ran h)) = Some (Some 4%nat)
  /\ option_map snd (getType 0 (lit "D") (ran h)) = Some None.
Proof.
  split; [ | split; [repeat constructor | vm_compute; auto]].
  repeat constructor; cbn; intros; lia.
Qed.

(** C112: asking one ExtendedMetaData for the name of a package and for its types panics *)
Theorem C112_name_and_types_refuted :
  exists create convert w p n, fresh w /\ consistent w
    /\ (exists w', run create convert [AskName (Pk p)] w = Some w') /\ (exists w', run create convert [AskType p n] w = Some w')
    /\ run create convert [AskName (Pk p); AskType p n] w = None /\ run create convert [AskType p n; AskName (Pk p)] w = None.
Proof.
  exists create, convert, small, 0%nat, (lit "A"). split; [exact small_fresh | ]. split; [exact small_consistent | ].
  split; [eexists; reflexivity | ]. split; [eexists; reflexivity | ]. split; reflexivity.
Qed.
Print Assumptions C112_name_and_types_refuted.

(** C113: the default value of a feature does not follow a change of its type *)
Theorem C113_default_after_change_refuted :
  ~ (forall create convert h w w' f, fresh w -> consistent w -> run create convert h w = Some w' ->
       option_map snd (getFeatureDefault create f w') = default_of create w' f).
Proof.
  intros H.
  specialize (H create convert [SetLiteral 0 (lit "7"); AskDefault 0; SetType 0 (Some 3%nat)] small
    (ran [SetLiteral 0 (lit "7"); AskDefault 0; SetType 0 (Some 3%nat)]) 0%nat small_fresh small_consistent eq_refl).
  vm_compute in H. discriminate.
Qed.
Print Assumptions C113_default_after_change_refuted.

(** C114: while its type does not change, it follows its literal and the factory of the package *)
Theorem C114_default_value :
  forall create convert f h w w',
    fresh w -> Forall (keeps_type f (ftype (features w f))) h -> run create convert h w = Some w' ->
    option_map snd (getFeatureDefault create f w') = default_of create w' f.
Proof. exact feature_defaults. Qed.
Print Assumptions C114_default_value.
Example C114_literals :
  let h := [SetLiteral 0 (lit "7"); AskDefault 0; SetDefault 0 (VInt 8); SetFactory 0 1; AskDefault 0; SetTypeDefault 2 (VInt 3)] in
  Forall (keeps_type 0 (ftype (features small 0))) h
  /\ default_of create (ran h) 0 = Some (VInt 8)
  /\ default_of create (ran (h ++ [SetLiteral 0 []])) 0 = Some (VInt 3).
Proof. split; [repeat constructor; discriminate | ]. vm_compute. auto. Qed.

(** C115: the type of a reference, the number of a classifier and the default value of a data type do not follow changes *)
Theorem C115_kept_answers_refuted :
  (exists create convert h w w' f, fresh w /\ consistent w /\ run create convert h w = Some w'
     /\ snd (getReferenceType f w') <> class_of w' f)
  /\ (exists create convert h w w' p c, fresh w /\ consistent w /\ run create convert h w = Some w'
     /\ In c (pclassifiers (packages w' p)) /\ nth_error (pclassifiers (packages w' p)) (Z.to_nat (snd (getClassifierID c w'))) <> Some c)
  /\ (exists create convert h1 h2 w w1 w2 c, fresh w /\ consistent w
     /\ run create convert (h1 ++ h2) w = Some w1 /\ run create convert (h1 ++ AskTypeDefault c :: h2) w = Some w2
     /\ snd (typeDefault c w1) <> snd (typeDefault c w2)).
Proof.
  split; [ | split].
  - exists create, convert, [AskReferenceType 1; SetType 1 (Some 1%nat)], small, (ran [AskReferenceType 1; SetType 1 (Some 1%nat)]), 1%nat.
    split; [exact small_fresh | ]. split; [exact small_consistent | ]. split; [reflexivity | ]. vm_compute. discriminate.
  - exists create, convert, [AskNumber 1; RemoveClassifier 0 0], small, (ran [AskNumber 1; RemoveClassifier 0 0]), 0%nat, 1%nat.
    split; [exact small_fresh | ]. split; [exact small_consistent | ]. split; [reflexivity | ]. split; [vm_compute; auto | ]. vm_compute. discriminate.
  - exists create, convert, [], [SetInstanceTypeName 5 (lit "int")], small,
      (ran [SetInstanceTypeName 5 (lit "int")]), (ran [AskTypeDefault 5; SetInstanceTypeName 5 (lit "int")]), 5%nat.
    split; [exact small_fresh | ]. split; [exact small_consistent | ]. split; [reflexivity | ]. split; [reflexivity | ]. vm_compute. discriminate.
Qed.
Print Assumptions C115_kept_answers_refuted.

(** C116: as long as what they depend on does not change they are right *)
Theorem C116_reference_type :
  forall create convert f c h w w',
    fresh w -> (ftype (features w f) = None \/ ftype (features w f) = Some c) ->
    Forall (sets_only f c) h -> run create convert h w = Some w' -> snd (getReferenceType f w') = class_of w' f.
Proof. exact reference_types. Qed.
Print Assumptions C116_reference_type.
Theorem C116_classifier_number :
  forall create convert p (member : nat -> Prop) h w w' c,
    fresh w -> consistent w ->
    (forall d, In d (pclassifiers (packages w p)) -> member d) ->
    (forall d q, member d -> cpackage (classifiers w d) = Some q -> q = p) ->
    Forall (only_receives p member) h -> run create convert h w = Some w' -> member c ->
    let i := snd (getClassifierID c w') in
    (0 <= i /\ nth_error (pclassifiers (packages w' p)) (Z.to_nat i) = Some c)
    \/ (i = -1 /\ ~ In c (pclassifiers (packages w' p))).
Proof. exact numbers. Qed.
Print Assumptions C116_classifier_number.
Theorem C116_type_default :
  forall create convert c h w w',
    fresh w -> Forall (keeps_data_type c) h -> run create convert h w = Some w' ->
    snd (typeDefault c w') = declared_default (classifiers w c).
Proof. exact type_defaults. Qed.
Print Assumptions C116_type_default.
Example C116_growing_package :
  let h := [AskNumber 4; AskNumber 3; AddClassifier 0 4; AskReferenceType 2; SetType 2 (Some 4%nat); AskTypeDefault 2] in
  Forall (only_receives 0 (fun c => (c < 5)%nat)) h /\ Forall (sets_only 2 4) h /\ Forall (keeps_data_type 2) h
  /\ snd (getClassifierID 4 (ran h)) = 4 /\ snd (getReferenceType 2 (ran h)) = Some 4%nat /\ snd (typeDefault 2 (ran h)) = VInt 0.
Proof.
  split; [repeat constructor; cbn; intros; lia | ]. split; [repeat constructor | ]. split; [repeat constructor | ].
  vm_compute. auto.
Qed.
