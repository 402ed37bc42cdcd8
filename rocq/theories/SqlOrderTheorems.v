(** C23, C59: the order of lists stored in SQL tables. *)
From Coq Require Import QArith SpecFloat Sorted.
From Verif Require Import Base SqlOrderModel SqlOrderSpec SqlOrderProofs SqlOrderProofs2.
Open Scope Z_scope.

(** *** C59 (and the part of C23 that holds): with exact positions, every history whose multi-element AddAll calls
    are at the end of the list keeps every list as the list operations describe it, and every query answers from
    these lists. *)
Theorem C59_order_exact :
  forall {V : Type} (veqb : V -> V -> bool) (h : list (@sop V)) o L,
  L = lists_after veqb (fun _ => []) h ->
  good_history veqb (fun L o => valid_op L o /\ simple_op L o) (fun _ => []) h ->
  valid_op L o -> simple_op L o ->
  let t := srun veqb rationals [] h in
  agrees rationals t L /\
  snd (sstep veqb rationals t o) = snd (list_spec veqb L o) /\
  agrees rationals (fst (sstep veqb rationals t o)) (fst (list_spec veqb L o)).
Proof. intros V veqb h o L. exact (exact_results veqb h o L). Qed.
Print Assumptions C59_order_exact.

(** With binary64 positions, as in the code, the same holds of every history whose new positions fall strictly
    between those of their neighbours. *)
Theorem C23_order_partial :
  forall {V : Type} (veqb : V -> V -> bool) (h : list (@sop V)) o,
  good_history veqb valid_op (fun _ => []) (h ++ [o]) ->
  precise_history binary64 veqb [] (h ++ [o]) ->
  let t := srun veqb binary64 [] h in
  let L := lists_after veqb (fun _ => []) h in
  agrees binary64 t L /\
  snd (sstep veqb binary64 t o) = snd (list_spec veqb L o) /\
  agrees binary64 (fst (sstep veqb binary64 t o)) (fst (list_spec veqb L o)).
Proof. intros V veqb h o. exact (precise_results veqb binary64 h o strict_binary64 eq_refl). Qed.
Print Assumptions C23_order_partial.

(** *** Non-trivial cases *)
Definition sample : list (@sop nat) :=
  [SEncode 1 [10; 11]; SAdd 2 0 20; SAdd 1 1 12; SAdd 1 0 13; SMove 1 0 3; SAddAll 1 4 [14; 15; 16]; SMove 1 6 0;
   SRemove 1 2; SSet 1 1 17; SAddAll 2 1 [21; 22]; SAddAll 1 0 [18]; SIndexOf 1 13; SClear 2; SAdd 2 0 23]%nat.
Example sample_good :
  good_history Nat.eqb (fun L o => valid_op L o /\ simple_op L o) (fun _ => []) sample.
Proof.
  unfold sample. cbn [good_history].
  repeat match goal with
  | |- True => exact I
  | |- (valid_op _ _ /\ _) /\ _ => split
  | |- valid_op _ _ /\ _ => split
  | |- valid_op _ _ => vm_compute; repeat split; discriminate
  | |- simple_op _ _ => vm_compute; solve [exact I | left; repeat constructor | right; reflexivity]
  end.
Qed.
Example sample_lists : lists_after Nat.eqb (fun _ => []) sample 1 = [18; 16; 17; 11; 13; 14; 15]%nat /\ lists_after Nat.eqb (fun _ => []) sample 2 = [23]%nat.
Proof. split; reflexivity. Qed.
Example sample_table : map (fun k => map (@val nat rationals) (select rationals (srun Nat.eqb rationals [] sample) k)) [1; 2; 3] =
  [[18; 16; 17; 11; 13; 14; 15]; [23]; []]%nat.
Proof. reflexivity. Qed.
(** the same history is precise in binary64 *)
Example sample_precise : precise_history binary64 Nat.eqb [] (sample ++ [SToArray 1]).
Proof.
  unfold sample. cbn [app precise_history].
  repeat match goal with
  | |- True => exact I
  | |- precise _ _ _ /\ _ => split
  | |- precise _ _ (SRemove _ _) => exact I
  | |- precise _ _ (SSet _ _ _) => exact I
  | |- precise _ _ (SIndexOf _ _) => exact I
  | |- precise _ _ (SClear _) => exact I
  | |- precise _ _ (SToArray _) => exact I
  | |- precise _ ?t ?o =>
      let v := eval vm_compute in t in change t with v; unfold precise;
      match goal with
      | |- True => exact I
      | |- between _ _ _ _ => idtac
      | |- match ?e with _ => _ end => let w := eval vm_compute in e in change e with w; cbv iota beta
      end;
      split; [vm_compute; repeat constructor | repeat constructor]
  end.
Qed.

(** *** C23 in full: refuted.  Inserting two elements between two others puts the first in front of its left
    neighbour, because their position is (a+b)/(nb+1), whatever the precision. *)
Definition stored (N : number) (h : list (@sop nat)) (k : Z) : list nat := map (@val nat N) (select N (srun Nat.eqb N [] h) k).
Theorem C23_add_all_refuted :
  exists h k, good_history Nat.eqb valid_op (fun _ => []) h /\
    lists_after Nat.eqb (fun _ => []) h k = [1; 2; 8; 9; 3]%nat /\
    stored binary64 h k = [1; 8; 9; 2; 3]%nat /\ stored rationals h k = [1; 8; 2; 9; 3]%nat.
Proof.
  exists [SEncode 0 [1; 2; 3]; SAddAll 0 2 [8; 9]]%nat, 0. split; [repeat split; cbn; try lia; auto|]. repeat split; reflexivity.
Qed.
Print Assumptions C23_add_all_refuted.
(** In front of the list it happens once the first position is below 1. *)
Theorem C23_add_all_front_refuted :
  exists h k, good_history Nat.eqb valid_op (fun _ => []) h /\
    lists_after Nat.eqb (fun _ => []) h k = [7; 8; 9; 2; 1]%nat /\
    stored binary64 h k = [7; 8; 2; 9; 1]%nat /\ stored rationals h k = [7; 8; 2; 9; 1]%nat.
Proof.
  exists [SEncode 0 [1]; SAdd 0 0 2; SAddAll 0 0 [7; 8; 9]]%nat, 0. split; [repeat split; cbn; try lia; auto|]. repeat split; reflexivity.
Qed.
Print Assumptions C23_add_all_front_refuted.

(** Inserting at one place over and over exhausts the precision of binary64: single insertions go wrong. *)
Definition squeeze (n : nat) : list (@sop nat) := SEncode 0 [0; 1]%nat :: map (fun i => SAdd 0 1 i) (seq 2 n).
Theorem C23_precision_refuted :
  exists n k, good_history Nat.eqb (fun L o => valid_op L o /\ simple_op L o) (fun _ => []) (squeeze n) /\
    stored binary64 (squeeze n) k <> lists_after Nat.eqb (fun _ => []) (squeeze n) k /\
    stored rationals (squeeze n) k = lists_after Nat.eqb (fun _ => []) (squeeze n) k.
Proof.
  assert (G : forall l L, good_history Nat.eqb (fun L o => valid_op L o /\ simple_op L o) L (map (fun i => SAdd 0 1 i) l)).
  { induction l as [|i l IH]; intro L; cbn [map good_history]; [exact I|]. split; [cbn; lia|apply IH]. }
  exists 54%nat, 0. split; [|split].
  - unfold squeeze. cbn [good_history]. split; [cbn; auto|apply G].
  - intro Q. apply (f_equal (fun l => nth 1 l 0%nat)) in Q. vm_compute in Q. discriminate Q.
  - vm_compute. reflexivity.
Qed.
Print Assumptions C23_precision_refuted.
