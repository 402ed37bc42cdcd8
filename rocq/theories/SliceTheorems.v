(** C47, C94: lists share memory through slices; which lists and slices see whose operations. *)
From Verif Require Import Base ListModel ListSpec SliceModel SliceSpec SliceRun SliceRuns.

(** Every call, in every history where lists are not made of each other's slices, whatever the growth of
    append: the result and the contents are those of the sequence operation, and it panics exactly when
    that operation is undefined. *)
Theorem C94_lists_over_slices_are_sequences :
  forall (A : Type) (eqb : A -> A -> bool) (nilv : A) (grow : nat -> nat -> nat),
    (forall x y, reflect (x = y) (eqb x y)) ->
    forall (w : world A) (h : nat) (o : hop A nat) (l : list A),
      reachW eqb nilv grow w -> contentsOf w h = Some l -> fair w (Call h o) ->
      (uniqueOf w h = true -> op_ok eqb l (plain w h o)) ->
      match wstep eqb nilv grow w (Call h o), spec_step eqb (uniqueOf w h) l (plain w h o) with
      | Some (w', Some r), Some (l', r') => r = r' /\ contentsOf w' h = Some l'
      | None, None => True
      | _, _ => False
      end.
Proof. exact @calls_are_sequences. Qed.
Print Assumptions C94_lists_over_slices_are_sequences.

(** The same against the model of the code over sequences, with no condition on the argument; and no
    other list changes, argument included. *)
Theorem C94_calls_leave_other_lists_alone :
  forall (A : Type) (eqb : A -> A -> bool) (nilv : A) (grow : nat -> nat -> nat)
         (w : world A) (h : nat) (o : hop A nat) (l : list A),
    reachW eqb nilv grow w -> contentsOf w h = Some l -> fair w (Call h o) ->
    match wstep eqb nilv grow w (Call h o), step eqb nilv (uniqueOf w h) l (plain w h o) with
    | Some (w', Some r), Ret (l', _) r' =>
        r = r' /\ contentsOf w' h = Some l' /\ uniqueOf w' h = uniqueOf w h
        /\ forall h', h' <> h -> contentsOf w' h' = contentsOf w h' /\ uniqueOf w' h' = uniqueOf w h'
    | None, Panic => True
    | _, _ => False
    end.
Proof. exact @calls_are_plain. Qed.
Print Assumptions C94_calls_leave_other_lists_alone.

(** Making a list of nothing or of a slice, making a slice and ToArray change no other list. *)
Theorem C94_creations_leave_other_lists_alone :
  forall (A : Type) (eqb : A -> A -> bool) (nilv : A) (grow : nat -> nat -> nat)
         (w : world A) (o : wop A) (w' : world A) (r : option (res A)),
    reachW eqb nilv grow w -> fair w o -> wstep eqb nilv grow w o = Some (w', r) ->
    match o with
    | New h u => contentsOf w' h = Some [] /\ uniqueOf w' h = u /\ forall h', h' <> h -> contentsOf w' h' = contentsOf w h'
    | NewFrom h u v =>
        contentsOf w' h = Some (valueOf w v) /\ uniqueOf w' h = u /\ forall h', h' <> h -> contentsOf w' h' = contentsOf w h'
    | Make v l _ => valueOf w' v = l /\ forall h', contentsOf w' h' = contentsOf w h'
    | Take v h => contentsOf w h = Some (valueOf w' v) /\ forall h', contentsOf w' h' = contentsOf w h'
    | Call _ _ => True
    end.
Proof. exact @creations_are_plain. Qed.
Print Assumptions C94_creations_leave_other_lists_alone.

(** A slice returned by ToArray keeps its elements through every history in which its list is only read,
    appended to or cleared, whatever happens to the other lists, as long as no list is made of memory it
    shares.  Missing: histories with other calls of its list, for which the statement is false. *)
Theorem C47_returned_slice_stays_partial :
  forall (A : Type) (eqb : A -> A -> bool) (nilv : A) (grow : nat -> nat -> nat)
         (w : world A) (v h : nat) (w1 : world A) (r : option (res A)) (w2 : world A),
    reachW eqb nilv grow w -> wstep eqb nilv grow w (Take v h) = Some (w1, r) ->
    quietly eqb nilv grow v h w1 w2 ->
    contentsOf w h = Some (valueOf w2 v).
Proof. exact @taken_stays. Qed.
Print Assumptions C47_returned_slice_stays_partial.

(** A slice returned by ToArray changes when its list does: Set, and RemoveAt, which clears its last
    element. *)
Theorem C47_returned_slice_refuted :
  forall grow : nat -> nat -> nat,
    let before := [Make 0 [1; 2; 3] 0; NewFrom 0 false 0; Take 1 0]%nat in
    (exists w w', runW Nat.eqb 0%nat grow start before = Some w /\ reachW Nat.eqb 0%nat grow w
       /\ runW Nat.eqb 0%nat grow w [Call 0 (HSet 0 9)]%nat = Some w'
       /\ valueOf w 1 = [1; 2; 3]%nat /\ valueOf w' 1 = [9; 2; 3]%nat)
    /\ (exists w w', runW Nat.eqb 0%nat grow start before = Some w /\ reachW Nat.eqb 0%nat grow w
       /\ runW Nat.eqb 0%nat grow w [Call 0 (HRemoveAt 0)] = Some w'
       /\ valueOf w 1 = [1; 2; 3]%nat /\ valueOf w' 1 = [2; 3; 0]%nat).
Proof. exact returned_slice_changes. Qed.
Print Assumptions C47_returned_slice_refuted.

(** A call of one list changes a slice returned by another: the first list is only the argument of
    InsertAll, and its own contents do not change. *)
Theorem C47_other_list_writes_returned_slice_refuted :
  forall grow : nat -> nat -> nat,
    exists w w',
      runW Nat.eqb 0%nat grow start
        [Make 0 [1; 2; 3] 0; NewFrom 0 false 0; Take 1 0; Call 0 (HRemoveAt 2); Make 2 [7] 0; NewFrom 5 false 2]%nat = Some w
      /\ reachW Nat.eqb 0%nat grow w
      /\ runW Nat.eqb 0%nat grow w [Call 5 (HInsertAll 0 0)]%nat = Some w'
      /\ contentsOf w' 0 = contentsOf w 0
      /\ valueOf w 1 = [1; 2; 0]%nat /\ valueOf w' 1 = [1; 2; 7]%nat.
Proof. exact other_list_writes. Qed.
Print Assumptions C47_other_list_writes_returned_slice_refuted.

(** Two lists made of one slice overwrite each other's elements: what Add added is not there any more,
    if the slice has spare capacity, and is if it has none. *)
Theorem C47_lists_of_one_slice_refuted :
  forall grow : nat -> nat -> nat,
    let program spare := [Make 0 [1] spare; NewFrom 0 false 0; NewFrom 5 false 0; Call 0 (HAdd 2); Call 5 (HAdd 3)]%nat in
    (exists w, runW Nat.eqb 0%nat grow start (program 1%nat) = Some w
       /\ contentsOf w 0 = Some [1; 3]%nat /\ contentsOf w 5 = Some [1; 3]%nat)
    /\ (exists w, runW Nat.eqb 0%nat grow start (program 0%nat) = Some w
       /\ contentsOf w 0 = Some [1; 2]%nat /\ contentsOf w 5 = Some [1; 3]%nat).
Proof. exact lists_of_one_slice. Qed.
Print Assumptions C47_lists_of_one_slice_refuted.

(** The hypotheses: three lists, one unique, one made of a slice with spare capacity; and a slice taken
    from a list that is then appended to, passed to InsertAll of another and cleared. *)
Example C94_history :
  exists w, runW Nat.eqb 0%nat (fun c n => (2 * c)%nat) start
    [Make 0 [4; 5] 2; NewFrom 0 false 0; New 1 true; New 2 false; Call 1 (HAddAll 0); Call 1 (HAdd 4); Call 2 (HInsertAll 0 0);
     Call 0 (HInsertAll 1 2); Call 2 (HRemoveAll 1); Call 0 (HMove 3 0)]%nat = Some w
    /\ reachW Nat.eqb 0%nat (fun c n => (2 * c)%nat) w
    /\ contentsOf w 0 = Some [5; 4; 4; 5]%nat /\ contentsOf w 1 = Some [4; 5]%nat /\ contentsOf w 2 = Some []
    /\ fair w (Call 0 (HAddAll 1%nat)) /\ (uniqueOf w 1 = true /\ op_ok Nat.eqb [4; 5]%nat (plain w 1 (HAddAll 0%nat))).
Proof. exact sample_history. Qed.
Example C47_quiet :
  exists w w1 r w2, reachW Nat.eqb 0%nat (fun c n => (2 * c)%nat) w
    /\ wstep Nat.eqb 0%nat (fun c n => (2 * c)%nat) w (Take 1 0) = Some (w1, r)
    /\ quietly Nat.eqb 0%nat (fun c n => (2 * c)%nat) 1 0 w1 w2
    /\ contentsOf w 0 = Some [4; 5]%nat /\ contentsOf w2 0 = Some [8]%nat /\ contentsOf w2 1 = Some [4; 5; 6; 7]%nat.
Proof. exact sample_quiet. Qed.
