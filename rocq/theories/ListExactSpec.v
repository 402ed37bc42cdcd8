(** What bulk additions to unique lists add: specification.  [ListSpec] says what they ought to add. *)
From Verif Require Import Base ListModel ListSpec.

Section ListExactSpec.
  Context {A : Type} (eqb : A -> A -> bool).

  (** of distinct elements [xs], those that are added to [s]: an element of [s] is left out while the elements
      left out before it are not more than the elements after it *)
  Fixpoint scanned (s : list A) (out : nat) (xs : list A) : list A :=
    match xs with
    | [] => []
    | x :: post =>
        if member eqb x s && (out <=? length post)%nat then scanned s (S out) post
        else x :: scanned s out post
    end.
  Definition added (s xs : list A) : list A :=
    let ys := fresh eqb [] xs in
    if (length s <=? length ys)%nat then fresh eqb s xs else scanned s 0 ys.

  Definition exact_step (s : list A) (o : op A) : option (list A * res A) :=
    match o with
    | AddAll c =>
        match added s (elems s c) with
        | [] => Some (s, RBool false)
        | ys => Some (s ++ ys, RBool true)
        end
    | InsertAll i c =>
        if valid_gap i (zlen s) then
          match added s (elems s c) with
          | [] => Some (s, RBool false)
          | ys => Some (insert_all_at (Z.to_nat i) ys s, RBool true)
          end
        else None
    | _ => spec_step eqb true s o
    end.
  Fixpoint exact_run (s : list A) (ops : list (op A)) : list (res A) * option (list A) :=
    match ops with
    | [] => ([], Some s)
    | o :: ops' =>
        match exact_step s o with
        | None => ([], None)
        | Some (s', r) => let '(rs, fin) := exact_run s' ops' in (r :: rs, fin)
        end
    end.

  (** the elements of a bulk addition: it has as many distinct ones as the list, or for each of them that is in the
      list, the others before it that are in the list are not more than those that come after it *)
  Definition bulk_exact (s xs : list A) : Prop :=
    (length s <= length (fresh eqb [] xs))%nat \/
    forall pre x post, fresh eqb [] xs = pre ++ x :: post -> In x s ->
      (length (filter (fun y => member eqb y s) pre) <= length post)%nat.
  Definition op_exact (s : list A) (o : op A) : Prop :=
    match o with AddAll c | InsertAll _ c => bulk_exact s (elems s c) | _ => True end.
  (** at every moment of a history *)
  Fixpoint history_exact (s : list A) (ops : list (op A)) : Prop :=
    match ops with
    | [] => True
    | o :: ops' =>
        op_exact s o /\ match spec_step eqb true s o with None => True | Some (s', _) => history_exact s' ops' end
    end.
End ListExactSpec.
