(** Specification of lists as mathematical sequences, independent of the array manipulations of
    [ListModel]; it only shares the type of operations and results. *)
From Verif Require Import Base ListModel.

Section ListSpec.
  Context {A : Type} (eqb : A -> A -> bool).

  Definition member (x : A) (s : list A) : bool := existsb (eqb x) s.

  (** position of the first occurrence *)
  Fixpoint first_pos (s : list A) (x : A) : option nat :=
    match s with
    | [] => None
    | y :: s' => if eqb y x then Some O else option_map S (first_pos s' x)
    end.
  Definition pos_res (p : option nat) : Z := match p with Some n => Z.of_nat n | None => -1 end.

  Definition insert_at (i : nat) (x : A) (s : list A) : list A := firstn i s ++ x :: skipn i s.
  Definition insert_all_at (i : nat) (xs s : list A) : list A := firstn i s ++ xs ++ skipn i s.
  Definition delete_range (i j : nat) (s : list A) : list A := firstn i s ++ skipn j s.
  Definition delete_at (i : nat) (s : list A) : list A := delete_range i (i + 1) s.
  Definition move (i j : nat) (x : A) (s : list A) : list A := insert_at j x (delete_at i s).
  Definition replace_at (i : nat) (x : A) (s : list A) : list A := firstn i s ++ x :: skipn (i + 1) s.

  (** elements of [xs] that are neither in [s] nor earlier in [xs], in order *)
  Fixpoint fresh (s xs : list A) : list A :=
    match xs with
    | [] => []
    | x :: xs' => if member x s then fresh s xs' else x :: fresh (x :: s) xs'
    end.

  Definition valid (i : Z) (n : Z) : bool := (0 <=? i) && (i <? n).       (* position of an element *)
  Definition valid_gap (i : Z) (n : Z) : bool := (0 <=? i) && (i <=? n).  (* position between elements *)

  (** [None]: the call must panic. *)
  Definition spec_step (unique : bool) (s : list A) (o : op A) : option (list A * res A) :=
    let n := zlen s in
    let keep r := Some (s, r) in
    match o with
    | Add x => if unique && member x s then keep (RBool false) else Some (s ++ [x], RBool true)
    | AddAll c =>
        let xs := elems s c in
        if unique
        then match fresh s xs with
             | [] => keep (RBool false)
             | ys => Some (s ++ ys, RBool true)
             end
        else Some (s ++ xs, RBool true)
    | Insert i x =>
        if valid_gap i n
        then if unique && member x s then keep (RBool false)
             else Some (insert_at (Z.to_nat i) x s, RBool true)
        else None
    | InsertAll i c =>
        let xs := elems s c in
        if valid_gap i n
        then if unique
             then match fresh s xs with
                  | [] => keep (RBool false)
                  | ys => Some (insert_all_at (Z.to_nat i) ys s, RBool true)
                  end
             else Some (insert_all_at (Z.to_nat i) xs s, RBool true)
        else None
    | MoveObject j x =>
        match first_pos s x with
        | Some i => if valid j n then Some (move i (Z.to_nat j) x s, RUnit) else None
        | None => None
        end
    | Move i j =>
        if valid i n && valid j n
        then match nth_error s (Z.to_nat i) with
             | Some x => Some (move (Z.to_nat i) (Z.to_nat j) x s, RElem x)
             | None => None
             end
        else None
    | RemoveAt i =>
        if valid i n
        then match nth_error s (Z.to_nat i) with
             | Some x => Some (delete_at (Z.to_nat i) s, RElem x)
             | None => None
             end
        else None
    | Remove x =>
        match first_pos s x with
        | Some i => Some (delete_at i s, RBool true)
        | None => keep (RBool false)
        end
    | RemoveRange i j =>
        if valid i n && valid_gap j n && (i <=? j)
        then Some (delete_range (Z.to_nat i) (Z.to_nat j) s, RUnit)
        else None
    | RemoveAll c =>
        let xs := elems s c in
        Some (filter (fun x => negb (member x xs)) s, RBool (existsb (fun x => member x xs) s))
    | Get i => if valid i n
               then match nth_error s (Z.to_nat i) with Some x => keep (RElem x) | None => None end
               else None
    | SetAt i x =>
        if valid i n
        then match nth_error s (Z.to_nat i) with
             | Some y =>
                 if unique && (match first_pos s x with
                               | Some k => negb (k =? Z.to_nat i)%nat | None => false end)
                 then None
                 else Some (replace_at (Z.to_nat i) x s, RElem y)
             | None => None
             end
        else None
    | Clear => Some ([], RUnit)
    | Size => keep (RInt n)
    | Empty => keep (RBool (match s with [] => true | _ => false end))
    | Contains x => keep (RBool (member x s))
    | IndexOf x => keep (RInt (pos_res (first_pos s x)))
    | ToArray => keep (RList s)
    end.

  Fixpoint spec_run (unique : bool) (s : list A) (ops : list (op A)) : list (res A) * option (list A) :=
    match ops with
    | [] => ([], Some s)
    | o :: ops' =>
        match spec_step unique s o with
        | None => ([], None)
        | Some (s', r) => let '(rs, fin) := spec_run unique s' ops' in (r :: rs, fin)
        end
    end.

  (** A bulk addition to a unique list on which the duplicate filter of the code is exact: the
      argument has at least as many distinct elements as the list, or none of its distinct elements,
      the last one excepted, is already in the list. *)
  Definition bulk_ok (s xs : list A) : Prop :=
    (length s <= length (fresh [] xs))%nat
    \/ Forall (fun x => ~ In x s) (removelast (fresh [] xs)).

  Definition op_ok (s : list A) (o : op A) : Prop :=
    match o with
    | AddAll c | InsertAll _ c => bulk_ok s (elems s c)
    | _ => True
    end.

  (** every bulk addition of the history is of that kind, at the moment it is made *)
  Fixpoint history_ok (s : list A) (ops : list (op A)) : Prop :=
    match ops with
    | [] => True
    | o :: ops' =>
        op_ok s o /\
        match spec_step true s o with
        | None => True
        | Some (s', _) => history_ok s' ops'
        end
    end.
End ListSpec.
