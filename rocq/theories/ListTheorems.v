(** C01, C02: array lists (AbstractEList + BasicEList) against mathematical sequences. *)
From Verif Require Import Base ListModel ListSpec ListProofs.

(** Non-unique lists: every history, whatever its arguments, gives the results and the contents of the
    same history on a sequence, and panics exactly where the sequence operation is undefined. *)
Theorem C01_list_is_sequence :
  forall (A : Type) (eqb : A -> A -> bool) (nilv : A),
    (forall x y, reflect (x = y) (eqb x y)) ->
    forall (data : list A) (ops : list (op A)),
      run eqb nilv false data ops = spec_run eqb false data ops.
Proof. exact @run_nonunique_spec. Qed.
Print Assumptions C01_list_is_sequence.

(** Unique lists: the same, for histories whose bulk additions satisfy [bulk_ok].
    Missing: the other bulk additions, for which the statement is false (next theorem). *)
Theorem C01_unique_list_is_sequence_partial :
  forall (A : Type) (eqb : A -> A -> bool) (nilv : A),
    (forall x y, reflect (x = y) (eqb x y)) ->
    forall (data : list A) (ops : list (op A)),
      history_ok eqb data ops ->
      run eqb nilv true data ops = spec_run eqb true data ops.
Proof. exact @run_unique_spec. Qed.
Print Assumptions C01_unique_list_is_sequence_partial.

(** IndexOf/Contains/first_pos mean what they say. *)
Theorem C01_index_of_is_first_occurrence :
  forall (A : Type) (eqb : A -> A -> bool),
    (forall x y, reflect (x = y) (eqb x y)) ->
    forall (l : list A) (e : A),
      (indexOf eqb l e = -1 /\ ~ In e l)
      \/ (exists n : nat, indexOf eqb l e = Z.of_nat n /\ nth_error l n = Some e
                          /\ forall m, (m < n)%nat -> nth_error l m <> Some e).
Proof.
  intros A eqb ok l e. rewrite (indexOf_spec eqb). destruct (first_pos eqb l e) eqn:E.
  - right. exists n. split; [reflexivity|]. exact (first_pos_some eqb ok _ _ _ E).
  - left. split; [reflexivity|]. now apply (first_pos_none eqb ok).
Qed.
Print Assumptions C01_index_of_is_first_occurrence.

(** The unrestricted statement is false: AddAll on a unique list can insert a second copy. *)
Theorem C01_unique_list_is_sequence_refuted :
  exists ops : list (op nat),
    run Nat.eqb 0%nat true [] ops <> spec_run Nat.eqb true [] ops.
Proof. exists [AddAll (Ext [1; 2; 3]%nat); AddAll (Ext [1; 2]%nat)]. vm_compute. discriminate. Qed.
Print Assumptions C01_unique_list_is_sequence_refuted.

(** C02: a unique list without duplicates stays without duplicates (same restriction). *)
Theorem C02_unique_list_has_no_duplicates_partial :
  forall (A : Type) (eqb : A -> A -> bool) (nilv : A),
    (forall x y, reflect (x = y) (eqb x y)) ->
    forall (data : list A) (ops : list (op A)) rs fin,
      NoDup data -> history_ok eqb data ops ->
      run eqb nilv true data ops = (rs, Some fin) -> NoDup fin.
Proof. exact @run_unique_NoDup. Qed.
Print Assumptions C02_unique_list_has_no_duplicates_partial.

(** C02 is false in general: [1;2;3].AddAll([1;2]) gives [1;2;3;2]. *)
Theorem C02_unique_list_has_no_duplicates_refuted :
  exists (ops : list (op nat)) rs fin,
    run Nat.eqb 0%nat true [] ops = (rs, Some fin) /\ ~ NoDup fin.
Proof.
  exists [AddAll (Ext [1; 2; 3]%nat); AddAll (Ext [1; 2]%nat)].
  exists [RBool true; RBool true], [1; 2; 3; 2]%nat.
  split; [vm_compute; reflexivity|].
  intro H. inversion H as [|? ? _ H']; subst. inversion H' as [|? ? Hn _]; subst. apply Hn.
  right. now left.
Qed.
Print Assumptions C02_unique_list_has_no_duplicates_refuted.

(** The hypotheses are met by histories that exercise every bulk operation. *)
Example history_ok_example :
  history_ok Nat.eqb [] [AddAll (Ext [1; 2; 3; 2]%nat); InsertAll 1 (Ext [7; 8; 9; 1; 5]%nat);
                         Remove 2%nat; AddAll (Ext [4]%nat); Move 0 4; Clear; AddAll Self]
  /\ run Nat.eqb 0%nat true [] [AddAll (Ext [1; 2; 3; 2]%nat); InsertAll 1 (Ext [7; 8; 9; 1; 5]%nat);
                         Remove 2%nat; AddAll (Ext [4]%nat); Move 0 4; ToArray; Insert 9 3%nat]
     = ([RBool true; RBool true; RBool true; RBool true; RElem 1%nat;
         RList [7; 8; 9; 5; 1; 3; 4]%nat], None).
Proof.
  split; [|vm_compute; reflexivity].
  cbn. repeat split; cbn; try (left; cbn; lia);
  right; cbn; repeat constructor; cbn; intuition congruence.
Qed.
