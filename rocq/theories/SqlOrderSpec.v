(** What the many-valued features of stored objects are: one list per object. *)
From Verif Require Import Base SqlOrderModel.
From Coq Require Import Sorted.

Section SqlOrderSpec.
  Context {V : Type} (veqb : V -> V -> bool).
  Notation lists := (Z -> list V).

  Definition put (L : lists) (k : Z) (l : list V) : lists := fun k' => if k' =? k then l else L k'.
  Definition insert_at (l : list V) (i : Z) (vs : list V) : list V := firstn (Z.to_nat i) l ++ vs ++ skipn (Z.to_nat i) l.
  Definition remove_at (l : list V) (i : Z) : list V := firstn (Z.to_nat i) l ++ skipn (S (Z.to_nat i)) l.
  Fixpoint first_index (l : list V) (v : V) (i : Z) : Z :=
    match l with [] => -1 | x :: l' => if veqb x v then i else first_index l' v (i + 1) end.
  Fixpoint last_index (l : list V) (v : V) (i : Z) : Z :=
    match l with
    | [] => -1
    | x :: l' => if last_index l' v (i + 1) =? -1 then (if veqb x v then i else -1) else last_index l' v (i + 1)
    end.

  Definition list_spec (L : lists) (o : @sop V) : lists * sres :=
    match o with
    | SEncode k vs => (put L k vs, RUnit)
    | SAdd k i v => if i <=? zlen (L k) then (put L k (insert_at (L k) i [v]), RUnit) else (L, RError)
    | SAddAll k i vs => if i <=? zlen (L k) then (put L k (insert_at (L k) i vs), RUnit) else (L, RError)
    | SRemove k i => (put L k (remove_at (L k) i), RVal (zget (L k) i))
    | SMove k s t =>
        match zget (L k) s with
        | Some v => (put L k (insert_at (remove_at (L k) s) t [v]), RVal (Some v))
        | None => (L, RVal None)
        end
    | SSet k i v => (match zset (L k) i v with Some l => put L k l | None => L end, RVal (zget (L k) i))
    | SClear k => (put L k [], RUnit)
    | SGet k i => (L, RVal (zget (L k) i))
    | SSize k => (L, RInt (zlen (L k)))
    | SIsEmpty k => (L, RBool (match L k with [] => true | _ => false end))
    | SContains k v => (L, RBool (existsb (fun x => veqb x v) (L k)))
    | SIndexOf k v => (L, RInt (first_index (L k) v 0))
    | SLastIndexOf k v => (L, RInt (last_index (L k) v 0))
    | SToArray k => (L, RList (L k))
    end.

  (** what the list layer guarantees: positions are not negative, moves are within the list, an object is stored
      once *)
  Definition valid_op (L : lists) (o : @sop V) : Prop :=
    match o with
    | SEncode k _ => L k = []
    | SAdd k i _ | SAddAll k i _ | SRemove k i | SSet k i _ | SGet k i => 0 <= i
    | SMove k s t => 0 <= s < zlen (L k) /\ 0 <= t < zlen (L k)
    | _ => True
    end.

  (** several elements at once only at the end *)
  Definition simple_op (L : lists) (o : @sop V) : Prop :=
    match o with SAddAll k i vs => (length vs <= 1)%nat \/ i = zlen (L k) | _ => True end.

  (** equal lists for every object, equal results *)
  Definition agrees (N : number) (t : list (@row V N)) (L : lists) : Prop := forall k, map (@val V N) (select N t k) = L k.

  Fixpoint good_history (ok : lists -> sop -> Prop) (L : lists) (h : list sop) : Prop :=
    match h with [] => True | o :: h' => ok L o /\ good_history ok (fst (list_spec L o)) h' end.
  Fixpoint lists_after (L : lists) (h : list sop) : lists :=
    match h with [] => L | o :: h' => lists_after (fst (list_spec L o)) h' end.
End SqlOrderSpec.

(** *** Precision: the positions given to new rows fall strictly between those of their neighbours. *)
Section Precise.
  Context {V : Type} (N : number).
  Notation table := (list (@row V N)).
  Definition increasing (l : list (num N)) : Prop := StronglySorted (fun a b => ltn N a b = true) l.
  Fixpoint steps (x inc : num N) (n : nat) : list (num N) :=
    match n with O => [] | S n' => x :: steps (addn N x inc) inc n' end.
  Definition between (xs : list (num N)) (i : nat) (new : list (num N)) : Prop :=
    increasing (firstn i xs ++ new ++ skipn i xs) /\ Forall (fun x => eqn N x (minusOne N) = false) new.
  Definition precise (t : table) (o : @sop V) : Prop :=
    let xs k := map (@idx V N) (select N t k) in
    match o with
    | SEncode k vs => between [] 0 (steps (one N) (one N) (length vs))
    | SAdd k i v => match getInsertIdx N t k i 1 with Some (x, _) => between (xs k) (Z.to_nat i) [x] | None => True end
    | SAddAll k i vs =>
        match getInsertIdx N t k i (length vs) with Some (x, inc) => between (xs k) (Z.to_nat i) (steps x inc (length vs)) | None => True end
    | SMove k s d =>
        match getInsertIdx N t k (if d >? s then d + 1 else d) 1 with
        | Some (x, _) => between (remove_at (xs k) s) (Z.to_nat d) [x]
        | None => True
        end
    | _ => True
    end.
  Fixpoint precise_history (veqb : V -> V -> bool) (t : table) (h : list sop) : Prop :=
    match h with [] => True | o :: h' => precise t o /\ precise_history veqb (fst (sstep veqb N t o)) h' end.
End Precise.
