(** C153-C156: maps of objects that keep their features in a store. *)
From Verif Require Import Base ListModel ListSpec NotifyModel StoreListModel StoreListSpec MapModel MapSpec StoreMapModel StoreMapSpec
  StoreMapProofs StoreMapLocks.

(** *** C154: a store-backed map whose entries have distinct keys acts on the pairs of its entries, whether the
    entries are cached or not, whatever the store held at first, and however often the cache is switched. *)
Theorem C154_map_operations :
  forall {K V : Type} (keqb : K -> K -> bool) (veqb : V -> V -> bool),
  (forall a b, reflect (a = b) (keqb a b)) ->
  forall unique st k v n h o s s' r l r',
  start_ok st k n ->
  sdisciplined keqb veqb unique (NewEStoreMap st k v n) (h ++ [o]) ->
  smrun keqb veqb unique (NewEStoreMap st k v n) h = Some s ->
  smstep keqb veqb unique s o = Some (s', r) ->
  smap_spec keqb veqb (pairs s) o = Some (l, r') ->
  pairs s' = l /\ r = r'.
Proof. intros K V keqb veqb Hk unique. exact (smap_operations keqb veqb Hk unique). Qed.
Print Assumptions C154_map_operations.

(** Its list operations are those of a sequence, and leave the entries as they are. *)
Theorem C154_list_operations :
  forall {K V : Type} (keqb : K -> K -> bool) (veqb : V -> V -> bool),
  (forall a b, reflect (a = b) (keqb a b)) ->
  forall unique st k v n h o lo s s' r,
  start_ok st k n ->
  sdisciplined keqb veqb unique (NewEStoreMap st k v n) (h ++ [o]) ->
  smrun keqb veqb unique (NewEStoreMap st k v n) h = Some s ->
  listop o = Some lo ->
  smstep keqb veqb unique s o = Some (s', r) ->
  exists r0, r = ROp r0 /\ seq_step Nat.eqb unique (contents s) lo = Some (contents s', r0)
             /\ skeyOf s' = skeyOf s /\ svalOf s' = svalOf s.
Proof. intros K V keqb veqb Hk unique. exact (smap_list_operations keqb veqb Hk unique). Qed.
Print Assumptions C154_list_operations.

(** No operation of the map panics; one of the list does only where the sequence has no answer (an index out of
    bounds). *)
Theorem C154_total :
  forall {K V : Type} (keqb : K -> K -> bool) (veqb : V -> V -> bool),
  (forall a b, reflect (a = b) (keqb a b)) ->
  forall unique st k v n h o s,
  start_ok st k n ->
  sdisciplined keqb veqb unique (NewEStoreMap st k v n) (h ++ [o]) ->
  smrun keqb veqb unique (NewEStoreMap st k v n) h = Some s ->
  (forall lo, listop o = Some lo -> seq_step Nat.eqb unique (contents s) lo <> None) ->
  exists s' r, smstep keqb veqb unique s o = Some (s', r).
Proof. intros K V keqb veqb Hk unique. exact (smap_total keqb veqb Hk unique). Qed.
Print Assumptions C154_total.

(** A store with two entries, 0 (key 1) and 1 (key 2); the program creates a third, caches, uncaches and looks up in
    between. *)
Definition k0 (e : nat) : nat := S e.
Definition v0 (e : nat) : nat := (10 * S e)%nat.
Definition start : smap nat nat := NewEStoreMap (Some [0; 1]%nat) k0 v0 2.
Definition history : list (smop nat nat) :=
  [SMap (MGetValue 2); SMap (MPut 3 30); SMap (MPut 1 11); SOn (SetCache true); SMap (MGetValue 3);
   SOn (N (L (Move 0 2))); SMap (MRemoveKey 2); SMap (MNew 5 50); SOn (N (AddWithNotification 3)); SOn (SetCache false);
   SMap (MPut 5 51); SMap (MNew 6 60); SOn (N (L (SetAt 0 4)));  SOn (SetCache true); SMap (MContainsKey 5);
   SOn (N (L (RemoveRange 1 2)))]%nat.
Example history_start : start_ok (Some [0; 1]%nat) k0 2.
Proof. split; [repeat constructor; cbn; intuition discriminate|cbn; intuition lia]. Qed.
Ltac disciplined_tac :=
  repeat match goal with
  | |- True => exact I
  | |- sdisciplined _ _ _ _ [] => exact I
  | |- _ /\ _ => split
  | |- sdisciplined _ _ _ _ (_ :: _) => cbn [sdisciplined]
  | |- sdisciplined_op _ _ _ _ (SMap (MPut _ _)) => exact I
  | |- sdisciplined_op _ _ _ _ (SMap (MGetValue _)) => exact I
  | |- sdisciplined_op _ _ _ _ (SMap (MContainsKey _)) => exact I
  | |- sdisciplined_op _ _ _ _ (SMap (MRemoveKey _)) => exact I
  | |- sdisciplined_op _ _ _ _ (SMap (MNew _ _)) => exact I
  | |- sdisciplined_op _ _ _ _ (SOn _) =>
      split; [exact I|]; split; [first [exact I | left; cbv; discriminate]|];
      intros s' r Q; vm_compute in Q; injection Q as <- <-; split; [vm_compute; repeat constructor; cbn; intuition discriminate | vm_compute; intuition lia]
  | |- match smstep _ _ _ ?s ?o with _ => _ end =>
      let v := eval vm_compute in (smstep Nat.eqb Nat.eqb true s o) in change (smstep Nat.eqb Nat.eqb true s o) with v; cbv iota beta
  end.
Example history_disciplined : sdisciplined Nat.eqb Nat.eqb true start (history ++ [SMap (MGetValue 5%nat)]).
Proof. unfold history, start. cbn [app]. disciplined_tac. Qed.
Example history_pairs : option_map pairs (smrun Nat.eqb Nat.eqb true start history) = Some [(6, 60); (5, 51)]%nat.
Proof. vm_compute. reflexivity. Qed.
Example history_lookup :
  (let? s := smrun Nat.eqb Nat.eqb true start history in
   let? (_, r) := smstep Nat.eqb Nat.eqb true s (SMap (MGetValue 5%nat)) in Some r) = Some (RVal (Some 51%nat)).
Proof. vm_compute. reflexivity. Qed.

(** *** C153, for every use of the list and the store: refuted.  RemoveRange panics on a map that does not cache, and
    works on the same map when it does. *)
Theorem C153_remove_range_refuted :
  exists s lo, smrun Nat.eqb Nat.eqb true start [] = Some s
    /\ seq_step Nat.eqb true (contents s) lo <> None
    /\ smstep Nat.eqb Nat.eqb true s (SOn lo) = None
    /\ (let? (s', _) := smstep Nat.eqb Nat.eqb true s (SOn (SetCache true)) in
        let? (s'', _) := smstep Nat.eqb Nat.eqb true s' (SOn lo) in Some (pairs s'')) = Some [(2, 20)]%nat.
Proof.
  exists start, (N (L (RemoveRange 0 1))). split; [reflexivity|]. split; [discriminate|]. split; vm_compute; reflexivity.
Qed.
Print Assumptions C153_remove_range_refuted.

(** A map that was read answers from the old store after another store is attached. *)
Theorem C153_attached_store_refuted :
  exists h s k v, smrun Nat.eqb Nat.eqb true start h = Some s
    /\ ~ In (k, v) (pairs s)
    /\ (let? (_, r) := smstep Nat.eqb Nat.eqb true s (SMap (MGetValue k)) in Some r) = Some (RVal (Some v)).
Proof.
  exists [SMap (MGetValue 1); SMap (MNew 7 70); SMap (MNew 8 80); SOn (SetEStore (Some [2; 3]))]%nat.
  eexists. exists 1%nat, 10%nat. split; [vm_compute; reflexivity|]. split; [vm_compute; intuition discriminate|vm_compute; reflexivity].
Qed.
Print Assumptions C153_attached_store_refuted.

(** The part that holds: C154, for lookups. *)
Theorem C153_lookup_partial :
  forall {K V : Type} (keqb : K -> K -> bool) (veqb : V -> V -> bool),
  (forall a b, reflect (a = b) (keqb a b)) ->
  forall unique st k v n h s key,
  start_ok st k n ->
  sdisciplined keqb veqb unique (NewEStoreMap st k v n) (h ++ [SMap (MGetValue key)]) ->
  smrun keqb veqb unique (NewEStoreMap st k v n) h = Some s ->
  exists s', smstep keqb veqb unique s (SMap (MGetValue key)) = Some (s', RVal (lookup keqb key (pairs s))) /\ pairs s' = pairs s.
Proof.
  intros K V keqb veqb Hk unique st k v n h s key Hs D E.
  destruct (C154_total keqb veqb Hk unique st k v n h _ s Hs D E) as (s' & r & M); [discriminate|].
  destruct (C154_map_operations keqb veqb Hk unique st k v n h _ s s' r _ _ Hs D E M eq_refl) as [P ->].
  exists s'. auto.
Qed.
Print Assumptions C153_lookup_partial.

(** *** C156: goroutines that use one map can block each other for ever exactly when one looks up a key before the map's
    data exist and another changes the list. *)
Theorem C156_deadlock_exactly :
  forall cs, deadlocks cs <->
  exists i j ci cj, i <> j /\ nth_error cs i = Some ci /\ nth_error cs j = Some cj
    /\ (exists b, In b ci /\ builds b) /\ (exists c, In c cj /\ changes c).
Proof.
  intro cs. split; [apply deadlock_needs|].
  intros (i & j & ci & cj & N & Ei & Ej & Hi & Hc). exact (deadlock_occurs cs i j ci cj N Ei Ej Hi Hc).
Qed.
Print Assumptions C156_deadlock_exactly.

(** Mutual exclusion all the while: a mutex is only given back by the goroutine that holds it. *)
Theorem C156_unlock_by_holder :
  forall cs s i m p, locksteps (goroutines cs) s -> nth_error (todo s) i = Some (Unlock m :: p) -> holder s m = Some i.
Proof.
  intros cs s i m p R E. destruct (linv_reach cs s R) as (Hl & _ & Hp).
  destruct (nth_len _ _ _ _ Hl E) as [c Ec]. pose proof (Hp i c _ Ec E) as Ph.
  apply phase_head_unlock in Ph as [P1 P2]. destruct m; [destruct (P1 eq_refl) as [Q _]|destruct (P2 eq_refl) as [Q _]]; now apply has_true.
Qed.
Print Assumptions C156_unlock_by_holder.

Definition readers : list (list lockcall) := [[CGetValue (Some 4%nat); CScan 3]; [CGetValue None]; [CPutExisting 2; CGetValue (Some 0%nat)]].
Definition writers : list (list lockcall) := [[CAdd; CGetValue None]; [CClear]; [CRemove; CScan 1]].
Example readers_free : ~ deadlocks readers.
Proof.
  rewrite C156_deadlock_exactly. intros (i & j & ci & cj & _ & _ & Ej & _ & c & Hc & Hch).
  destruct j as [|[|[|[|j]]]]; try discriminate; injection Ej as <-; cbn in Hc; repeat destruct Hc as [<-|Hc]; contradiction.
Qed.
Example writers_free : ~ deadlocks writers.
Proof.
  rewrite C156_deadlock_exactly. intros (i & j & ci & cj & _ & Ei & _ & (b & Hb & Hbb) & _).
  destruct i as [|[|[|[|i]]]]; try discriminate; injection Ei as <-; cbn in Hb; repeat destruct Hb as [<-|Hb]; contradiction.
Qed.

(** *** C155, that concurrent use never blocks for ever: refuted by the first lookup and an addition. *)
Theorem C155_concurrent_use_refuted : deadlocks [[CGetValue (Some 0%nat)]; [CAdd]].
Proof.
  apply C156_deadlock_exactly. exists 0%nat, 1%nat, [CGetValue (Some 0%nat)], [CAdd].
  split; [discriminate|]. split; [reflexivity|]. split; [reflexivity|]. split; [eexists; split; [now left|exact I]|]. exists CAdd. split; [now left|exact I].
Qed.
Print Assumptions C155_concurrent_use_refuted.

(** The part that holds: without lookups that build the map's data, and without changes of the list. *)
Theorem C155_no_deadlock_partial :
  forall cs, (forall l c, In l cs -> In c l -> ~ builds c) \/ (forall l c, In l cs -> In c l -> ~ changes c) ->
  ~ deadlocks cs.
Proof.
  intros cs H D. apply C156_deadlock_exactly in D as (i & j & ci & cj & _ & Ei & Ej & (b & Hb & Hbb) & c & Hc & Hch).
  apply nth_error_In in Ei, Ej. destruct H as [H|H]; [exact (H ci b Ei Hb Hbb)|exact (H cj c Ej Hc Hch)].
Qed.
Print Assumptions C155_no_deadlock_partial.
