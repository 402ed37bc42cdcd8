(** Property C49: the callbacks of an array list tell a subclass exactly what changed. *)
From Coq Require Import Permutation.
From Verif Require Import Base ListModel ListSpec CallbackSpec CallbackProofs.

(** Every call that returns announces each entering and each leaving element exactly once. *)
Theorem C49_callbacks_announce_each_element_once :
  forall (A : Type) (eqb : A -> A -> bool) (nilv : A),
  (forall x y, reflect (x = y) (eqb x y)) ->
  forall unique data o d cb r,
  step eqb nilv unique data o = Ret (d, cb) r ->
  Permutation (data ++ entered cb) (d ++ left cb).
Proof. intros A eqb nilv Hok unique data o d cb r H. exact (proj1 (step_callbacks eqb nilv Hok _ _ _ _ _ _ H)). Qed.
Print Assumptions C49_callbacks_announce_each_element_once.

(** Every call but AddAll also announces exact positions: replaying the callbacks on a mirror of the
    old contents gives the new contents. *)
Theorem C49_callbacks_have_exact_positions_partial :
  forall (A : Type) (eqb : A -> A -> bool) (nilv : A),
  (forall x y, reflect (x = y) (eqb x y)) ->
  forall unique data o d cb r,
  not_add_all o ->
  step eqb nilv unique data o = Ret (d, cb) r ->
  fold_left apply_callback cb data = d.
Proof.
  intros A eqb nilv Hok unique data o d cb r Ho H.
  exact (proj2 (step_callbacks eqb nilv Hok _ _ _ _ _ _ H) Ho).
Qed.
Print Assumptions C49_callbacks_have_exact_positions_partial.

(** AddAll numbers its DidAdd callbacks from 0 instead of from the old size. *)
Theorem C49_callbacks_have_exact_positions_refuted :
  exists (data d : list nat) o cb r,
  step Nat.eqb 0%nat false data o = Ret (d, cb) r /\
  fold_left apply_callback cb data <> d.
Proof.
  exists [1%nat], [1%nat; 2%nat], (AddAll (Ext [2%nat])), [DidAdd 0 2%nat; DidChange], (RBool true).
  split; [reflexivity|cbn; discriminate].
Qed.
Print Assumptions C49_callbacks_have_exact_positions_refuted.

Example C49_case_remove_all :
  step Nat.eqb 0%nat true [1;2;3]%nat (RemoveAll (Ext [3;1]%nat))
    = Ret ([2]%nat, [DidRemove 2 3%nat; DidChange; DidRemove 0 1%nat; DidChange]) (RBool true)
  /\ not_add_all (RemoveAll (Ext [3;1]%nat)).
Proof. split; [reflexivity|exact I]. Qed.
Example C49_case_insert_all :
  fold_left apply_callback [DidAdd 1 8%nat; DidChange; DidAdd 2 9%nat; DidChange] [1;2]%nat = [1;8;9;2]%nat.
Proof. reflexivity. Qed.
