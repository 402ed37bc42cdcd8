(** C22 and its refinements C75-C78: store-backed lists and objects. *)
From Verif Require Import Base ListModel ListSpec NotifyModel NotifySpec StoreListModel StoreListSpec StoreListProofs.

(** C22/C75: from any state in which cache, store and size agree on the contents, every history made of
    the allowed calls has the results of a mathematical sequence, panics exactly when it should, and
    leaves cache, store and size in agreement.  Missing with respect to C22: the calls excluded by
    [sop_ok], for which the statement is false (below). *)
Theorem C22_store_list_is_a_sequence_partial :
  forall (A : Type) (eqb : A -> A -> bool) (nilv : A),
    (forall x y, reflect (x = y) (eqb x y)) ->
    forall unique (ops : list (sop A)) (s : slist A) (l : list A),
      holds s l -> hist_ok eqb unique l ops ->
      results (srun eqb nilv unique s ops) = fst (seq_run eqb unique l ops)
      /\ ends (srun eqb nilv unique s ops) (snd (seq_run eqb unique l ops)).
Proof. exact @srun_seq. Qed.
Print Assumptions C22_store_list_is_a_sequence_partial.

(** a new list, with or without a store, is such a state *)
Theorem C75_new_list_agrees_with_its_store :
  forall (A : Type) (st : option (list A)),
    holds (initialize st) (match st with Some t => t | None => [] end).
Proof. exact @initialize_holds. Qed.
Print Assumptions C75_new_list_agrees_with_its_store.

Theorem C75_store_list_histories_are_those_of_a_sequence :
  forall (A : Type) (eqb : A -> A -> bool) (nilv : A),
    (forall x y, reflect (x = y) (eqb x y)) ->
    forall unique (ops : list (sop A)) (s : slist A) (l : list A),
      holds s l -> hist_ok eqb unique l ops ->
      results (srun eqb nilv unique s ops) = fst (seq_run eqb unique l ops)
      /\ ends (srun eqb nilv unique s ops) (snd (seq_run eqb unique l ops)).
Proof. exact @srun_seq. Qed.
Print Assumptions C75_store_list_histories_are_those_of_a_sequence.

(** whatever is cached at the start, the results and the notifications are the same *)
Theorem C75_cache_is_not_observable :
  forall (A : Type) (eqb : A -> A -> bool) (nilv : A),
    (forall x y, reflect (x = y) (eqb x y)) ->
    forall unique (ops : list (sop A)) (s1 s2 : slist A) (l : list A),
      holds s1 l -> holds s2 l -> hist_ok eqb unique l ops ->
      results (srun eqb nilv unique s1 ops) = results (srun eqb nilv unique s2 ops)
      /\ sent (srun eqb nilv unique s1 ops) = sent (srun eqb nilv unique s2 ops).
Proof.
  intros A eqb nilv ok unique ops s1 s2 l H1 H2 Hok. split.
  - exact (srun_same eqb nilv ok unique ops s1 s2 l H1 H2 Hok).
  - exact (srun_same_notifs eqb nilv ok unique ops s1 s2 l H1 H2 Hok).
Qed.
Print Assumptions C75_cache_is_not_observable.

(** the notifications describe the changes *)
Theorem C75_store_list_notifications_mirror_the_contents :
  forall (A : Type) (eqb : A -> A -> bool) (nilv : A),
    (forall x y, reflect (x = y) (eqb x y)) ->
    forall unique (ops : list (sop A)) (s : slist A) (l : list A),
      holds s l -> hist_ok eqb unique l ops ->
      forall fin, snd (seq_run eqb unique l ops) = Some fin ->
      observes_all (sent (srun eqb nilv unique s ops)) l fin.
Proof. exact @srun_observes. Qed.
Print Assumptions C75_store_list_notifications_mirror_the_contents.

(** C76: persistent single-valued features of a store-backed object *)
Theorem C76_persistent_feature_is_a_variable :
  forall (A : Type) (m : nat -> option (option A)) (cached : bool) (cs : list (oop A)),
    Forall persistent cs -> orun (SO (fun _ => None) (Some m) cached) cs = var_run m cs.
Proof. exact @orun_fresh. Qed.
Print Assumptions C76_persistent_feature_is_a_variable.

(** C77: queries on lists of references that may be proxies *)
Theorem C77_queries_see_the_resolved_objects :
  forall (A : Type) (eqb : A -> A -> bool) (nilv : A),
    (forall x y, reflect (x = y) (eqb x y)) ->
    forall (res : A -> A), (forall x, res (res x) = res x) ->
    forall (qs : list (query A)) (s : slist A) (c : list A),
      holds s c -> NoDup (map res c) -> Forall (resolved_query res) qs ->
      qrun eqb nilv res s qs = queries_spec eqb (map res c) qs.
Proof.
  intros A eqb nilv ok res idem qs s c H.
  apply (qrun_spec eqb nilv ok res idem). eapply holds_pholds; eassumption.
Qed.
Print Assumptions C77_queries_see_the_resolved_objects.

(** C78: the callbacks (used by maps to follow their entries) do not depend on the cache, except for
    RemoveRange and moves *)
Theorem C78_callbacks_do_not_depend_on_the_cache :
  forall (A : Type) (eqb : A -> A -> bool) (nilv : A),
    (forall x y, reflect (x = y) (eqb x y)) ->
    forall unique (s1 s2 : slist A) (l : list A) (o : sop A),
      holds s1 l -> holds s2 l -> sop_ok eqb unique l o -> same_callbacks o ->
      calls (sstep eqb nilv unique s1 o) = calls (sstep eqb nilv unique s2 o).
Proof. exact @sstep_callbacks. Qed.
Print Assumptions C78_callbacks_do_not_depend_on_the_cache.

(** *** where C22 is false *)

(** A store attached to a list is not asked for its size: the list [1;2] of a new store answers Size 0. *)
Theorem C22_attached_store_refuted :
  exists (t : list nat) rs,
    srun Nat.eqb 0%nat true (initialize None) [SetEStore (Some t); N (L Size); N (L ToArray)] = (rs, snd (srun Nat.eqb 0%nat true (initialize None) [SetEStore (Some t)]))
    /\ map (fun '(r, _, _) => r) rs = [RUnit; RInt 0; RList t] /\ zlen t <> 0.
Proof. exists [1; 2]%nat. eexists. split; [vm_compute; reflexivity|]. split; [reflexivity|discriminate]. Qed.
Print Assumptions C22_attached_store_refuted.

(** An empty list detached from its store loses what is added afterwards. *)
Theorem C22_detached_empty_list_refuted :
  exists h, srun Nat.eqb 0%nat true (initialize (Some []))
              [SetEStore None; N (L (Add 5%nat)); N (L Size); N (L (Get 0)); N (L ToArray); N (L (Contains 5%nat))] = h
    /\ results h = [RUnit; RBool true; RInt 1; RElem 0%nat; RList []; RBool false].
Proof. eexists. split; [reflexivity|vm_compute; reflexivity]. Qed.
Print Assumptions C22_detached_empty_list_refuted.

(** Inserting a non-unique cached list into itself leaves the store with other contents than the
    cache: switching the cache off changes the list. *)
Theorem C22_self_insertion_refuted :
  exists h, srun Nat.eqb 0%nat false (initialize (Some [1; 2]%nat))
              [SetCache true; N (L (InsertAll 1 Self)); N (L ToArray); SetCache false; N (L ToArray)] = h
    /\ results h = [RUnit; RBool true; RList [1; 1; 2; 2]%nat; RUnit; RList [1; 1; 1; 2]%nat].
Proof. eexists. split; [reflexivity|vm_compute; reflexivity]. Qed.
Print Assumptions C22_self_insertion_refuted.

(** Once a proxy of a cached list has been resolved it is no longer found, though it still is when
    nothing is cached. *)
Theorem C22_proxy_search_refuted :
  exists (res : nat -> nat) (t : list nat) p,
    (forall x, res (res x) = res x)
    /\ qrun Nat.eqb 0%nat res (initialize (Some t)) [QGet 0; QIndexOf p] = Some [RElem (res p); RInt 0]
    /\ qrun Nat.eqb 0%nat res (setCache (initialize (Some t)) true) [QGet 0; QIndexOf p]
       = Some [RElem (res p); RInt (-1)].
Proof.
  exists (fun x => if (x =? 7)%nat then 8%nat else x), [7%nat], 7%nat.
  split; [|split; reflexivity].
  intro x. destruct (Nat.eqb_spec x 7) as [->|H]; [reflexivity|].
  destruct (Nat.eqb_spec x 7); [contradiction|reflexivity].
Qed.
Print Assumptions C22_proxy_search_refuted.

(** RemoveRange on an uncached list calls DidRemove with a slice where an element is expected (a map
    then fails its type assertion); on a cached list it does not. *)
Theorem C78_callbacks_of_remove_range_refuted :
  exists (t : list nat),
    calls (sstep Nat.eqb 0%nat true (initialize (Some t)) (N (L (RemoveRange 0 2))))
      = Some [DidRemoveSlice 0 [1%nat]; DidRemoveSlice 0 [1; 2]%nat; CB DidChange]
    /\ calls (sstep Nat.eqb 0%nat true (setCache (initialize (Some t)) true) (N (L (RemoveRange 0 2))))
      = Some [CB (DidRemove 1 2%nat); CB (DidRemove 0 1%nat); CB DidChange].
Proof. exists [1; 2; 3]%nat. split; vm_compute; reflexivity. Qed.
Print Assumptions C78_callbacks_of_remove_range_refuted.

(** Moving an element onto its own position is reported by an uncached list only. *)
Theorem C78_callbacks_of_move_refuted :
  exists (t : list nat),
    calls (sstep Nat.eqb 0%nat true (initialize (Some t)) (N (L (Move 0 0))))
      = Some [CB (DidMove 0 1%nat 0); CB DidChange]
    /\ calls (sstep Nat.eqb 0%nat true (setCache (initialize (Some t)) true) (N (L (Move 0 0)))) = Some [].
Proof. exists [1; 2; 3]%nat. split; vm_compute; reflexivity. Qed.
Print Assumptions C78_callbacks_of_move_refuted.

(** A transient feature keeps its value only until the cache is switched. *)
Theorem C76_transient_feature_refuted :
  exists (f : feature) (m : nat -> option (option nat)),
    orun (SO (fun _ => None) (Some m) false) [OSet f (Some 3%nat); OGet f; OSetCache true; OGet f]
    = [OUnit; OVal (Some 3%nat); OUnit; OVal None].
Proof. exists (Feature 0 true), (fun _ => None). reflexivity. Qed.
Print Assumptions C76_transient_feature_refuted.

(** *** examples *)
Example store_list_history :
  let ops := [N (L (Add 4%nat)); SetCache true; N (L (InsertAll 1 (Ext [7; 8; 9; 6]%nat))); N (L (Move 0 4));
              SetCache false; N (L (RemoveAll (Ext [9; 2]%nat))); SetEStore None; N (L (RemoveRange 1 3));
              N (L (SetAt 0 5%nat)); N (RemoveWithNotification 3%nat); N (L ToArray)] in
  hist_ok Nat.eqb true [1; 2; 3]%nat ops
  /\ results (srun Nat.eqb 0%nat true (initialize (Some [1; 2; 3]%nat)) ops)
     = [RBool true; RUnit; RBool true; RElem 1%nat; RUnit; RBool true; RUnit; RUnit; RElem 7%nat; RUnit;
        RList [5%nat; 1%nat; 4%nat]].
Proof.
  split; [|vm_compute; reflexivity].
  cbn. repeat split; try discriminate. left. cbn. lia.
Qed.

Example proxy_queries :
  let res := fun x => if (x =? 7)%nat then 8%nat else x in
  qrun Nat.eqb 0%nat res (initialize (Some [1; 7; 2]%nat))
    [QIndexOf 8%nat; QSetCache true; QIndexOf 8%nat; QToArray; QContains 2%nat; QSetCache false; QGet 1]
  = Some [RInt 1; RUnit; RInt 1; RList [1; 8; 2]%nat; RBool true; RUnit; RElem 8%nat].
Proof. reflexivity. Qed.

Example persistent_feature_history :
  orun (SO (fun _ => None) (Some (fun _ => None)) false)
    [OSet (Feature 2 false) (Some 3%nat); OSetCache true; OGet (Feature 2 false); OSet (Feature 2 false) (Some 4%nat);
     OSetCache false; OGet (Feature 2 false); OUnset (Feature 2 false); OIsSet (Feature 2 false); OGet (Feature 2 false)]
  = [OUnit; OUnit; OVal (Some 3%nat); OUnit; OUnit; OVal (Some 4%nat); OUnit; OBool false; OVal None].
Proof. reflexivity. Qed.
