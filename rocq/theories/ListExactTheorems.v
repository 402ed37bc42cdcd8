(** What bulk additions to unique lists add: theorems. *)
From Verif Require Import Base ListModel ListSpec ListProofs ListExactSpec ListExactProofs.
Local Open Scope list_scope.

(** ** C149: what a unique list is after any calls *)

(** Everything but bulk additions is as for a sequence without repetitions.  [added] says what bulk additions add. *)
Theorem C149_unique_list_exactly : forall (A : Type) (eqb : A -> A -> bool) (nilv : A),
  (forall x y, reflect (x = y) (eqb x y)) ->
  forall (data : list A) (ops : list (op A)), run eqb nilv true data ops = exact_run eqb data ops.
Proof. intros A eqb nilv ok data ops. apply run_exact. exact ok. Qed.
Print Assumptions C149_unique_list_exactly.

Example C149_example :
  exact_run Nat.eqb [1; 2; 3; 4; 5; 6]%nat [AddAll (Ext [1; 2; 8; 3]%nat); Add 8%nat; InsertAll 0 (Ext [7; 1; 9]%nat); Size] =
    ([RBool true; RBool false; RBool true; RInt 10], Some [7; 9; 1; 2; 3; 4; 5; 6; 8; 3]%nat).
Proof. reflexivity. Qed.

(** ** C150: when a bulk addition to a unique list keeps it without repetitions *)

(** This is exactly when it does what it ought to: when the argument has as many distinct elements as the list, or
    no element of the list is preceded in it by more elements of the list than it is followed by elements.  A
    history of such calls is that of a sequence without repetitions. *)
Theorem C150_bulk_addition_iff : forall (A : Type) (eqb : A -> A -> bool) (nilv : A),
  (forall x y, reflect (x = y) (eqb x y)) ->
  (forall (s : list A) (o : op A) s' cb r, NoDup s -> step eqb nilv true s o = Ret (s', cb) r ->
     (NoDup s' <-> op_exact eqb s o) /\ (spec_step eqb true s o = Some (s', r) <-> op_exact eqb s o)) /\
  (forall (data : list A) (ops : list (op A)), history_exact eqb data ops ->
     run eqb nilv true data ops = spec_run eqb true data ops /\
     (forall rs fin, NoDup data -> run eqb nilv true data ops = (rs, Some fin) -> NoDup fin)).
Proof.
  intros A eqb nilv ok. split.
  - intros s o s' cb r Hd E. pose proof (step_exact eqb nilv ok s o) as Ha. rewrite E in Ha.
    destruct (exact_step eqb s o) as [[s1 r1]|] eqn:Ee; [|destruct Ha]. destruct Ha as [<- <-].
    split; [eapply exact_NoDup; eauto|].
    rewrite <- (exact_spec_iff eqb nilv ok s o).
    + rewrite Ee. split; congruence.
    + intros i c ->. cbn in Ee. unfold valid_gap in Ee. destruct (0 <=? i) eqn:E1, (i <=? zlen s) eqn:E2; try discriminate. lia.
  - intros data ops H. split; [apply run_history; auto|]. intros rs fin Hd. apply run_history_NoDup; auto.
Qed.
Print Assumptions C150_bulk_addition_iff.

(** elements of the list among new ones; the statement of C01 for bulk additions of [bulk_ok] leaves this out *)
Example C150_example :
  history_exact Nat.eqb [1; 2; 3; 4; 5; 6]%nat [AddAll (Ext [1; 7; 2; 8; 9]%nat); InsertAll 2 (Ext [3; 10]%nat)] /\
  ~ bulk_ok Nat.eqb [1; 2; 3; 4; 5; 6]%nat [1; 7; 2; 8; 9]%nat /\
  ~ op_exact Nat.eqb [1; 2; 3; 4; 5; 6]%nat (AddAll (Ext [7; 1; 2])%nat).
Proof.
  assert (ok : forall x y, reflect (x = y) (Nat.eqb x y)) by apply Nat.eqb_spec.
  split; [|split].
  - split; [apply (bulk_Forall Nat.eqb ok)|cbn; split; [apply (bulk_Forall Nat.eqb ok) | exact I]]; cbn;
      repeat constructor; cbn; lia.
  - intros [H|H]; cbn in H; [lia|]. inversion H as [|? ? Q]. apply Q. cbn. auto.
  - cbn. rewrite (bulk_Forall Nat.eqb ok). cbn. intros H. inversion H as [|? ? Q Q1]. inversion Q1 as [|? ? Q2]. apply Q2. cbn. auto.
Qed.
