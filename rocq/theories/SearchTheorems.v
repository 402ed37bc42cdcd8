(** C37: binary search. *)
From Verif Require Import Base SearchModel SearchSpec SearchProofs.

(** On any list BinarySearch terminates without panicking, with a position inside the list or at its end. *)
Theorem C37_binary_search_total :
  forall (A T : Type) (cmp : A -> T -> Z) l t,
  zlen l < 2 ^ 63 ->
  exists p b, BinarySearch cmp l t = Found p b /\ 0 <= p <= zlen l.
Proof. exact @search_total. Qed.
Print Assumptions C37_binary_search_total.

(** On a sorted list it returns the insertion point, and reports presence exactly when some element matches. *)
Theorem C37_binary_search_correct :
  forall (A T : Type) (cmp : A -> T -> Z) l t,
  zlen l < 2 ^ 63 -> sorted_for cmp l t ->
  exists p b, BinarySearch cmp l t = Found (Z.of_nat p) b /\
    insertion_point cmp l t p /\
    (b = true -> exists x, nth_error l p = Some x /\ cmp x t = 0) /\
    (b = false -> forall x, In x l -> cmp x t <> 0).
Proof. exact @search_correct. Qed.
Print Assumptions C37_binary_search_correct.

(** Inserting at the reported position keeps the list sorted. *)
Theorem C37_insertion_keeps_sorted :
  forall (A T : Type) (cmp : A -> T -> Z) l t p z,
  sorted_for cmp l t -> insertion_point cmp l t p -> cmp z t = 0 ->
  sorted_for cmp (firstn p l ++ z :: skipn p l) t.
Proof. exact @insertion_sorted. Qed.
Print Assumptions C37_insertion_keeps_sorted.

Example C37_case_sorted : sorted_for Z.sub [1; 3; 3; 7] 3.
Proof.
  intros n m x y Hnm Hx Hy.
  destruct n as [|[|[|[|n]]]]; destruct m as [|[|[|[|m]]]]; cbn in Hx, Hy; try lia;
    try discriminate; try (injection Hx as <-); try (injection Hy as <-); try lia;
    try (destruct m; discriminate); try (destruct n; discriminate).
Qed.
Example C37_case_found : BinarySearch Z.sub [1; 3; 3; 7] 3 = Found 1 true.
Proof. reflexivity. Qed.
Example C37_case_absent : BinarySearch Z.sub [1; 3; 3; 7] 4 = Found 3 false.
Proof. reflexivity. Qed.
