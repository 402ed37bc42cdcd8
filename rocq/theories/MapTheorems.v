(** C17, C56: maps over entry lists. *)
From Verif Require Import Base ListModel ListSpec MapModel MapSpec MapProofs.

(** *** C56 (and the part of C17 that holds): as long as the program keeps keys distinct and leaves the entries of
    the map alone, every map operation acts as the corresponding operation on the pairs of the entry list. *)
Theorem C56_map_operations :
  forall {K V : Type} (keqb : K -> K -> bool) (veqb : V -> V -> bool),
  (forall a b, reflect (a = b) (keqb a b)) ->
  forall k0 v0 h o s s' r l r',
  disciplined keqb veqb (NewBasicEMap k0 v0) (h ++ [o]) ->
  mrun keqb veqb (NewBasicEMap k0 v0) h = Some s ->
  mstep keqb veqb s o = Some (s', r) ->
  map_spec keqb veqb (view s) o = Some (l, r') ->
  view s' = l /\ r = r'.
Proof. intros K V keqb veqb Hk. exact (map_agrees keqb veqb Hk). Qed.
Print Assumptions C56_map_operations.

(** No map operation panics. *)
Theorem C56_map_total :
  forall {K V : Type} (keqb : K -> K -> bool) (veqb : V -> V -> bool) (s : emap K V) o,
  (forall l, o <> MList l) -> exists s' r, mstep keqb veqb s o = Some (s', r).
Proof. intros K V keqb veqb. exact (map_total keqb veqb). Qed.
Print Assumptions C56_map_total.

(** A history with lookups in between, list operations, and direct handling of entries that are outside the map. *)
Definition sample : list (mop nat nat) :=
  [MPut 1 10; MPut 2 20; MGetValue 1; MNew 3 30; MSetValue 2 31; MList (Insert 0 2%nat); MPut 2 21;
   MList (Move 0 2); MRemoveKey 1; MNew 4 40; MList (SetAt 0 3%nat)]%nat.
Example sample_disciplined : disciplined Nat.eqb Nat.eqb (NewBasicEMap 0 0)%nat (sample ++ [MGetValue 3%nat]).
Proof.
  unfold sample. cbn [app].
  repeat match goal with
  | |- True => exact I
  | |- disciplined _ _ _ [] => exact I
  | |- _ /\ _ => split
  | |- disciplined _ _ _ (_ :: _) => cbn [disciplined]
  | |- disciplined_op _ _ (MList _) =>
      cbv; intros s' r Q; injection Q as <- <-; split;
      [repeat constructor; cbn; intuition discriminate | cbn; intuition lia]
  | |- disciplined_op _ _ _ => cbv; intuition discriminate
  | |- match mstep _ _ ?s ?o with _ => _ end => let v := eval cbv in (mstep Nat.eqb Nat.eqb s o) in change (mstep Nat.eqb Nat.eqb s o) with v; cbv iota beta
  end.
Qed.
Example sample_view : option_map view (mrun Nat.eqb Nat.eqb (NewBasicEMap 0 0)%nat sample) = Some [(4, 40); (3, 31)]%nat.
Proof. reflexivity. Qed.
Example sample_lookup :
  (let? s := mrun Nat.eqb Nat.eqb (NewBasicEMap 0 0)%nat sample in
   let? (_, r) := mstep Nat.eqb Nat.eqb s (MGetValue 3%nat) in Some r) = Some (RVal (Some 31%nat)).
Proof. reflexivity. Qed.

(** *** C17 in full: refuted.  Runs a history and looks a key up, in the map and in the entry list. *)
Definition answer (h : list (mop nat nat)) (k : nat) : option (option nat * list (nat * nat)) :=
  let? s := mrun Nat.eqb Nat.eqb (NewBasicEMap 0 0)%nat h in
  let? (_, r) := mstep Nat.eqb Nat.eqb s (MGetValue k) in
  match r with RVal v => Some (v, view s) | _ => None end.

(** Two entries with one key are accepted by the list; removing one of them makes the map forget the other. *)
Theorem C17_map_agrees_refuted :
  exists h k l v, answer h k = Some (None, l) /\ In (k, v) l /\ NoDup (map fst l).
Proof.
  exists [MNew 7 1; MNew 7 2; MList (Add 0%nat); MList (Add 1%nat); MGetValue 7; MList (Remove 0%nat)]%nat, 7%nat, [(7, 2)]%nat, 2%nat.
  split; [reflexivity|]. split; [now left|]. repeat constructor. intros [].
Qed.
Print Assumptions C17_map_agrees_refuted.

(** The same entries answer differently depending on whether the map was built before a Put. *)
Theorem C17_put_order_refuted :
  exists h h' k l v v', answer h k = Some (Some v, l) /\ answer h' k = Some (Some v', l) /\ v <> v'.
Proof.
  exists [MNew 7 1; MNew 7 2; MList (Add 0%nat); MList (Add 1%nat); MPut 7 3]%nat,
         [MNew 7 1; MNew 7 2; MList (Add 0%nat); MList (Add 1%nat); MGetValue 7; MPut 7 3]%nat, 7%nat, [(7, 3); (7, 2)]%nat, 2%nat, 3%nat.
  repeat split; try reflexivity. discriminate.
Qed.
Print Assumptions C17_put_order_refuted.

(** Modifying an entry of the map leaves the old answer. *)
Theorem C17_entry_update_refuted :
  exists h k l v v', answer h k = Some (Some v, l) /\ l = [(k, v')] /\ v <> v'.
Proof. exists [MPut 7 1; MGetValue 7; MSetValue 0 2]%nat, 7%nat, [(7, 2)]%nat, 1%nat, 2%nat. repeat split. discriminate. Qed.
Print Assumptions C17_entry_update_refuted.

(** The part of C17 that holds: C56, restated for lookups. *)
Theorem C17_lookup_partial :
  forall {K V : Type} (keqb : K -> K -> bool) (veqb : V -> V -> bool),
  (forall a b, reflect (a = b) (keqb a b)) ->
  forall k0 v0 h s k,
  disciplined keqb veqb (NewBasicEMap k0 v0) (h ++ [MGetValue k]) ->
  mrun keqb veqb (NewBasicEMap k0 v0) h = Some s ->
  exists s', mstep keqb veqb s (MGetValue k) = Some (s', RVal (lookup keqb k (view s))) /\ view s' = view s.
Proof.
  intros K V keqb veqb Hk k0 v0 h s k D E.
  exists (inited keqb s). split; [|reflexivity].
  destruct (map_agrees keqb veqb Hk k0 v0 h (MGetValue k) s _ _ _ _ D E eq_refl eq_refl) as [_ Q].
  cbn [mstep]. now rewrite Q.
Qed.
Print Assumptions C17_lookup_partial.
