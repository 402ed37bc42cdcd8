(** Lock and Unlock of objects with a store, and the lists the encoder leaves locked. *)
From Verif Require Import Base ListModel NotifyModel StoreListModel StoreObjModel StoreObjSpec StoreLockModel StoreLockSpec
  StoreLockProofs.

Section StoreLockTheorems.
  Context {A : Type} (eqb : A -> A -> bool) (nilv : A) (kind : nat -> fkind) (count : nat).

  (** *** C166: Lock and Unlock are a pair, whatever is done in between

      The full claim — after Lock, any calls, and Unlock, each list is held as often as before — fails both ways. *)
  Theorem C166_pair_partial st c v l h h' (w w' : world A) k :
    snd (wrun eqb nilv kind (NewObject st c v l) h) = Some w -> snd (wrun eqb nilv kind w h') = Some w' ->
    (forall i, is_list count w i <-> is_list count w' i) ->
    forall i, oUnlock count w' (oLock count w k) i = k i.
  Proof.
    intros H H' S i. pose proof (tagged_run eqb nilv kind h _ _ (tagged_new st c v l) H) as T.
    refine (proj2 (proj1 (lock_unlock count w w' k i (tagged_unshared _ T) (tagged_unshared _ _))) (S i)). eapply tagged_run; eassumption.
  Qed.

  (** *** C167: exactly which lists are left locked, and exactly which are given back without being held *)
  Theorem C167_left_exactly st c v l h h' (w w' : world A) k :
    snd (wrun eqb nilv kind (NewObject st c v l) h) = Some w -> snd (wrun eqb nilv kind w h') = Some w' ->
    forall i, let k' := oUnlock count w' (oLock count w k) in
      (k' i = k i <-> (is_list count w i <-> is_list count w' i))
      /\ (is_list count w i -> ~ is_list count w' i -> k' i = k i + 1)
      /\ (~ is_list count w i -> is_list count w' i -> k' i = k i - 1).
  Proof.
    intros H H' i. pose proof (tagged_run eqb nilv kind h _ _ (tagged_new st c v l) H) as T.
    refine (lock_unlock count w w' k i (tagged_unshared _ T) (tagged_unshared _ _)). eapply tagged_run; eassumption.
  Qed.

  (** an object without a store is encoded: the lists it has stay locked exactly if it does not cache *)
  Theorem C167_encoded_object st c v l h (w : world A) fs t k :
    snd (wrun eqb nilv kind (NewObject st c v l) h) = Some w -> wstore w = None ->
    forall i, let k' := snd (encodeObject kind count w fs t k) in
      (wcache w = false -> is_list count w i -> k' i = k i + 1)
      /\ (wcache w = true \/ ~ is_list count w i -> k' i = k i).
  Proof.
    intros H Hs i. apply encode_locks; [|exact Hs]. eapply tagged_unshared, tagged_run; [apply (tagged_new st c v l)|exact H].
  Qed.
End StoreLockTheorems.

(** one feature, a list *)
Definition lk_kind : nat -> fkind := fun _ => Many false.
Definition lk_new (st : option nat) (c : bool) : world nat := NewObject st c (fun _ _ => None) (fun _ _ => []).
Definition lk_free : locked_by := fun _ => 0.

(** the list is read, the object is encoded: the client's list is locked and nobody can unlock it; and a list read
    between Lock and Unlock is given back without being held *)
Theorem C166_pair_refuted :
  (exists w w', snd (wrun Nat.eqb 0%nat lk_kind (lk_new None false) [WGet 0]) = Some w
    /\ snd (wrun Nat.eqb 0%nat lk_kind w [WSetEStore (Some 0%nat)]) = Some w'
    /\ oUnlock 1 w' (oLock 1 w lk_free) 0%nat = 1
    /\ snd (encodeObject lk_kind 1 w [0%nat] 0 lk_free) 0%nat = 1)
  /\ (exists w w', snd (wrun Nat.eqb 0%nat lk_kind (lk_new None false) []) = Some w
    /\ snd (wrun Nat.eqb 0%nat lk_kind w [WGet 0]) = Some w'
    /\ oUnlock 1 w' (oLock 1 w lk_free) 0%nat = -1).
Proof. split; do 2 eexists; repeat split. Qed.

(** a caching object is encoded: nothing stays locked *)
Example C167_case : exists w, snd (wrun Nat.eqb 0%nat lk_kind (lk_new None true) [WGet 0]) = Some w
  /\ wstore w = None /\ is_list 1 w 0 /\ snd (encodeObject lk_kind 1 w [0%nat] 0 lk_free) 0%nat = 0.
Proof. eexists. repeat split. exists 0%nat. split; [lia|reflexivity]. Qed.
Example C166_case : exists w w', snd (wrun Nat.eqb 0%nat lk_kind (lk_new None false) [WGet 0]) = Some w
  /\ snd (wrun Nat.eqb 0%nat lk_kind w [WGet 0; WIsSet 0]) = Some w'
  /\ (forall i, is_list 1 w i <-> is_list 1 w' i) /\ is_list 1 w 0.
Proof. do 2 eexists. repeat split; try (intros (f & Hf & E); exists f; split; assumption). exists 0%nat. split; [lia|reflexivity]. Qed.

Print Assumptions C166_pair_partial.
Print Assumptions C166_pair_refuted.
Print Assumptions C167_left_exactly.
Print Assumptions C167_encoded_object.
