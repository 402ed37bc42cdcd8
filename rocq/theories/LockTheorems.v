(** Property theorems: the per-object lock manager (C30). *)
From Verif Require Import Base LockModel LockSpec LockProofs.

(** for any number of sessions and keys, in every interleaving *)
Theorem C30_mutual_exclusion : forall n s, reachable n s -> mutual_exclusion s.
Proof. exact lock_exclusion. Qed.
Print Assumptions C30_mutual_exclusion.

Theorem C30_no_entry_remains : forall n s, reachable n s -> all_idle s -> forall k, locks s k = None.
Proof. exact no_entries. Qed.
Print Assumptions C30_no_entry_remains.

Theorem C30_no_mutex_left_locked : forall n s, reachable n s -> all_idle s -> forall m, held s m = false.
Proof. exact no_mutex_held. Qed.
Print Assumptions C30_no_mutex_left_locked.

(** Unlock is never called on an unlocked mutex *)
Theorem C30_no_fatal_unlock : forall n s, reachable n s -> ~ unlock_fatal s.
Proof. exact no_fatal. Qed.
Print Assumptions C30_no_fatal_unlock.

(** a waiting session can proceed unless another session is in the same key's section; sharing pooled mutexes
    between keys only ever makes it wait for an Unlock that is about to happen *)
Theorem C30_waits_only_for_same_key : forall n s i k m, reachable n s -> nth_error (pcs s) i = Some (Wait k m) ->
  (exists s', step s s' /\ nth_error (pcs s') i = Some (Crit k m)) \/
  (exists j, in_section s j k) \/
  (exists j m' s', nth_error (pcs s) j = Some (Unl m') /\ step s s' /\ nth_error (pcs s') j = Some Idle).
Proof. exact blocked_why. Qed.
Print Assumptions C30_waits_only_for_same_key.

(** contention: session 0 in the section of key 7, session 1 waiting for it *)
Example C30_contention_example : exists s, reachable 3 s /\ in_section s 0 7 /\ nth_error (pcs s) 1 = Some (Wait 7 0).
Proof.
  eexists. split; [|split].
  - eapply r_step; [eapply r_step; [eapply r_step; [apply r_init|]|]|].
    + eapply (st_acquire_new _ 0 7); [reflexivity|reflexivity|apply get_new].
    + eapply (st_lock _ 0); reflexivity.
    + eapply (st_acquire_old _ 1 7); reflexivity.
  - exists 0%nat. reflexivity.
  - reflexivity.
Qed.

(** reuse: a mutex still locked by session 0 is handed to another key by the pool *)
Example C30_reuse_example : exists s, reachable 2 s /\ nth_error (pcs s) 0 = Some (Unl 0) /\
  nth_error (pcs s) 1 = Some (Wait 9 0) /\ held s 0 = true.
Proof.
  eexists. split; [|split; [|split]].
  - eapply r_step; [eapply r_step; [eapply r_step; [eapply r_step; [apply r_init|]|]|]|].
    + eapply (st_acquire_new _ 0 7); [reflexivity|reflexivity|apply get_new].
    + eapply (st_lock _ 0); reflexivity.
    + eapply (st_release_last _ 0 7); reflexivity.
    + eapply (st_acquire_new _ 1 9); [reflexivity|reflexivity|]. eapply (get_pool _ 0 [] []). reflexivity.
  - reflexivity.
  - reflexivity.
  - reflexivity.
Qed.
