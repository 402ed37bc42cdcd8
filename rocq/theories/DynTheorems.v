(** Attributes of dynamic and reflective objects: C126, C127, C128. *)
From Verif Require Import Base DynModel DynSpec DynProofs.
Local Open Scope nat_scope.

(** class 0 has the attributes 0 (default 7), 1 (a list) and 2, class 1 has 3 and 4; class 2 inherits 0 and 5, where 5 is the
    first feature of its class 3.  Object 0 is dynamic, 1 reflective, both of class 0 and observed. *)
Definition ex_many (f : nat) : bool := Nat.eqb f 1.
Definition ex_default (f : nat) : option nat := if Nat.eqb f 0 then Some 7%nat else None.
Definition ex_features (c : nat) : list nat := match c with 0 => [0; 1; 2] | 1 => [3; 4] | 2 => [6; 5] | 3 => [5] | 4 => [6] | _ => [] end%nat.
Definition ex_ids (f : nat) : nat := match f with 1 | 4 => 1 | 2 => 2 | _ => 0 end%nat.
Definition empty : world nat := mkW ex_features ex_ids (fun _ => mkO true 9 None false) (fun _ => mkL 0 0 []) 0 [].
Definition start : world nat := create (create empty 0 0 false true) 1 0 true true.
Definition answers (ks : list (call nat)) (w : world nat) : list (answer nat) := snd (real_run ex_many ex_default ks w).
Definition told (ks : list (call nat)) (w : world nat) : list (note nat) := sent (fst (real_run ex_many ex_default ks w)).

(** ** C126: attributes are variables that belong to their features *)
(** looking at a list makes it set *)
Theorem C126_reading_sets_refuted : answers [IsSet 0 1; Get 0 1; IsSet 0 1] start = [Flag false; Value (Lst 0); Flag true].
Proof. reflexivity. Qed.
Print Assumptions C126_reading_sets_refuted.
(** the old value announced is nil although the attribute had its default value; the same for the new value of EUnset *)
Theorem C126_announced_values_refuted :
  answers [Get 0 0; Set_ 0 0 (Data 8); Unset 0 0; Get 0 0] start = [Value (Data 7); Done; Done; Value (Data 7)]%nat /\
  told [Get 0 0; Set_ 0 0 (Data 8); Unset 0 0]%nat start = [mkN SET 0 (Some 0) Nil (Data 8); mkN UNSET 0 (Some 0) (Data 8) Nil]%nat.
Proof. split; reflexivity. Qed.
Print Assumptions C126_announced_values_refuted.
(** nil is set, but another value is read *)
Theorem C126_nil_refuted : answers [Set_ 0 0 Nil; Get 0 0; IsSet 0 0] start = [Done; Value (Data 7); Flag false]%nat.
Proof. reflexivity. Qed.
Print Assumptions C126_nil_refuted.
(** two objects have one list: an edit through one changes the other, which announces nothing *)
Theorem C126_shared_list_refuted :
  let ks := [Get 0 1; Set_ 1 1 (Lst 0); Edit 0 (fun l => l ++ [5])]%nat in
  answers (ks ++ [Get 0 1; Get 1 1])%nat start = [Value (Lst 0); Done; Done; Value (Lst 0); Value (Lst 0)]%nat /\
  told ks start = [mkN SET 1 (Some 1) Nil (Lst 0); mkN EDIT 0 (Some 1) (Lst 0) (Lst 0)]%nat.
Proof. split; reflexivity. Qed.
Print Assumptions C126_shared_list_refuted.
(** the first attribute is removed from the class: the values of the others are read from other features *)
Theorem C126_removed_feature_refuted :
  let w := fst (real_run ex_many ex_default [Set_ 0 0 (Data 10); Set_ 0 2 (Data 12)]%nat start) in
  let w' := redefine w (fun c => match c with 0%nat => [1; 2]%nat | _ => ex_features c end) (fun f => match f with 2 => 1 | 4 => 1 | _ => 0 end%nat) in
  answers [Get 0 2; Get 0 1]%nat w' = [Value Nil; Value (Data 10)]%nat.
Proof. reflexivity. Qed.
Print Assumptions C126_removed_feature_refuted.
(** a feature is added to the class: it cannot be used on objects made before *)
Theorem C126_added_feature_refuted :
  let w := redefine start (fun c => match c with 0%nat => [0; 1; 2; 8]%nat | _ => ex_features c end) (fun f => match f with 8%nat => 3%nat | _ => ex_ids f end) in
  answers [Set_ 0 8 (Data 1); Get 0 8; IsSet 0 8; Unset 0 8]%nat w = [Failed; Failed; Failed; Failed].
Proof. reflexivity. Qed.
Print Assumptions C126_added_feature_refuted.
(** with another class, the value of the attribute at the same place is read; a reflective object keeps its short slice *)
Theorem C126_other_class_refuted :
  let w := fst (real_run ex_many ex_default [Set_ 0 0 (Data 10); Set_ 1 0 (Data 11)]%nat start) in
  answers [Get 0 3]%nat (setEClass w 0 1) = [Value (Data 10)]%nat /\ answers [Get 1 3]%nat (setEClass w 1 1) = [Value (Data 11)]%nat /\
  answers [Get 1 0; Get 1 2]%nat (setEClass (fst (real_run ex_many ex_default [Get 1 3]%nat (setEClass start 1 1))) 1 0) = [Value (Data 7); Failed]%nat.
Proof. repeat split; reflexivity. Qed.
Print Assumptions C126_other_class_refuted.
(** two supertypes: a reflective object reads the feature of the other one *)
Theorem C126_two_supertypes_refuted :
  let w := create start 2 2 true true in answers [Set_ 2 5 (Data 1); Get 2 6; Get 2 5]%nat w = [Done; Value (Data 1); Value (Data 1)]%nat /\
  told [Set_ 2 5 (Data 1)]%nat w = [mkN SET 2 (Some 6) Nil (Data 1)]%nat.
Proof. split; reflexivity. Qed.
Print Assumptions C126_two_supertypes_refuted.

(** ** C127: while classes stay, attributes are variables *)
Theorem C127_variables : forall (D : Type) (many : nat -> bool) (default : nat -> option D) (w : world D) (m : memory D),
  numbered w -> sized w -> agrees w m ->
  forall ks, let r := real_run many default ks w in let i := ideal_run many default (has_of w) (watched_of w) ks m in
    snd r = snd i /\ agrees (fst r) (fst i).
Proof. intros D many default w m N S A ks. exact (run_ok many default ks w m (conj N (conj S A))). Qed.
Print Assumptions C127_variables.
Theorem C127_new_object : forall (D : Type) (w : world D) o c r b, sized w ->
  sized (create w o c r b) /\ forall f, stored (create w o c r b) o f = Nil.
Proof. intros D w o c r b S. split; [now apply create_sized|intro f; apply create_unset]. Qed.
Print Assumptions C127_new_object.

Definition blank : memory nat := mkM (fun _ _ => Nil) (fun _ => (0, 0, []))%nat 0 [].
Definition ex_kept (c : nat) : list nat := match c with 0 => [0; 1; 2] | 1 => [3; 4] | 3 => [5] | 4 => [6] | _ => [] end%nat.
Definition start_kept : world nat := redefine start ex_kept ex_ids.
Lemma kept_numbered : numbered start_kept.
Proof.
  intros c f H. do 5 (destruct c as [|c]; [cbn in H |- *; intuition (subst; reflexivity)|]). destruct H.
Qed.
Lemma kept_sized : sized start_kept.
Proof. intro o. do 2 (destruct o as [|o]; [reflexivity|]). reflexivity. Qed.
Lemma kept_agrees : agrees start_kept blank.
Proof.
  constructor; try reflexivity; [|intros l H; cbn in H; lia].
  intros o f H. destruct o as [|[|o]]; [|reflexivity|reflexivity]. cbn in H. intuition (subst; reflexivity).
Qed.
Example ex_history : let ks := [Set_ 0 2 (Data 4); Get 0 1; Edit 0 (fun l => 9 :: l); Get 1 0; Set_ 1 0 (Data 5); Unset 0 2; Get 0 2; Get 1 0; Set_ 0 3 Nil]%nat in
  answers ks start_kept = [Done; Value (Lst 0); Done; Value (Data 7); Done; Done; Value Nil; Value (Data 5); Failed]%nat /\
  elements (lists (fst (real_run ex_many ex_default ks start_kept)) 0%nat) = [9]%nat /\
  answers ks start_kept = snd (ideal_run ex_many ex_default (has_of start_kept) (watched_of start_kept) ks blank).
Proof.
  intro ks. split; [reflexivity|]. split; [reflexivity|].
  exact (proj1 (C127_variables nat ex_many ex_default start_kept blank kept_numbered kept_sized kept_agrees ks)).
Qed.

(** ** C128: what becomes of values when classes change *)
(** SetEClass of a dynamic object: values stay at their numbers *)
Theorem C128_set_class : forall (D : Type) (w : world D) o c, numbered w -> sized w -> reflective (objects w o) = false -> c <> class (objects w o) ->
  sized (setEClass w o c) /\
  (forall f g, In f (features w c) -> In g (features w (class (objects w o))) -> fid w f = fid w g -> stored (setEClass w o c) o f = stored w o g) /\
  (forall f, In f (features w c) -> length (features w (class (objects w o))) <= fid w f -> stored (setEClass w o c) o f = Nil) /\
  (forall o' f, o' <> o -> stored (setEClass w o c) o' f = stored w o' f).
Proof.
  intros D w o c N S R n. split; [now apply setEClass_sized|]. split; [|split].
  - intros f g Hf Hg E. exact (proj2 (setEClass_stored w o c f g N S R n Hf) (eq_sym E)).
  - intros f Hf A. rewrite (proj1 (setEClass_stored w o c f f N S R n Hf)). apply Nat.ltb_ge in A. now rewrite A.
  - intros o' f. apply setEClass_others.
Qed.
Print Assumptions C128_set_class.
(** features are added at the end of classes: calls on the others do what they did, calls on the new ones panic for every
    object that has its slice *)
Theorem C128_added_features : forall (D : Type) (many : nat -> bool) (default : nat -> option D) (w : world D) fs ids,
  (forall c, exists more, fs c = features w c ++ more) -> (forall c f, In f (features w c) -> ids f = fid w f) ->
  numbered w -> numbered (redefine w fs ids) -> sized w ->
  forall o f k, properties (objects w o) <> None -> on o f k -> In f (fs (class (objects w o))) ->
  (In f (features w (class (objects w o))) ->
     real many default k (redefine w fs ids) = (redefine (fst (real many default k w)) fs ids, snd (real many default k w))) /\
  (~ In f (features w (class (objects w o))) -> real many default k (redefine w fs ids) = (redefine w fs ids, Failed)).
Proof.
  intros D many default w fs ids H1 H2 N N' S o f k P K H. split; intro Q.
  - eapply grown_call; eassumption.
  - eapply new_feature_panics; eassumption.
Qed.
Print Assumptions C128_added_features.

Definition ex_more (c : nat) : list nat := match c with 0 => [0; 1; 2; 8] | _ => ex_kept c end.
Definition ex_more_ids (f : nat) : nat := match f with 8 => 3 | _ => ex_ids f end.
Example ex_added : answers [Set_ 0 2 (Data 4); Get 0 2] (redefine start_kept ex_more ex_more_ids) = [Done; Value (Data 4)] /\
  real ex_many ex_default (Get 0 8) (redefine start_kept ex_more ex_more_ids) = (redefine start_kept ex_more ex_more_ids, Failed).
Proof.
  split; [reflexivity|].
  apply (C128_added_features nat ex_many ex_default start_kept ex_more ex_more_ids) with (o := 0) (f := 8); try apply kept_numbered; try apply kept_sized.
  - intros [|c]; [now exists [8]|]. exists []. now rewrite app_nil_r.
  - intros c f H. do 5 (destruct c as [|c]; [cbn in H; intuition (subst; reflexivity)|]). destruct H.
  - intros c f H. do 5 (destruct c as [|c]; [cbn in H |- *; intuition (subst; reflexivity)|]). destruct H.
  - discriminate.
  - split; reflexivity.
  - cbn. auto.
  - cbn. intuition discriminate.
Qed.
Example ex_class_kept : stored (setEClass (fst (real ex_many ex_default (Set_ 0 1 (Data 3)) start_kept)) 0 1) 0 4 = Data 3 /\
  stored (fst (real ex_many ex_default (Set_ 0 1 (Data 3)) start_kept)) 0 1 = Data 3.
Proof. split; reflexivity. Qed.
