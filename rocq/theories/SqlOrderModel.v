(** Model of the many-valued features of ecore/sqlstore.go: one SQL table per feature, whose rows carry the object,
    a position [idx] of SQL type REAL and the value; the position of a list element is given by sorting on [idx].

    The table is the list of its rows.  SQLite semantics used: ORDER BY sorts the selected rows (rows with equal
    [idx] come in row id order, the index on (object, idx) being used), LIMIT n OFFSET k skips k rows, none when k
    is negative, and keeps n; an inserted row gets one more than the largest row id of the table.  Values are the
    encoded values, none of them NULL.  The numbers are a parameter: binary64 in the code. *)
From Verif Require Import Base.
From Coq Require Import QArith SpecFloat.
Open Scope Z_scope.

Record number := mkNumber {
  num : Type;
  ltn : num -> num -> bool; eqn : num -> num -> bool;
  addn : num -> num -> num; muln : num -> num -> num; divn : num -> num -> num;
  ofNat : nat -> num;
  minusOne : num }.

(** exact rational numbers *)
Definition rationals : number :=
  mkNumber Q (fun x y => negb (Qle_bool y x)) Qeq_bool Qplus Qmult Qdiv (fun n => inject_Z (Z.of_nat n)) (-1 # 1).

(** IEEE 754 binary64, Go's float64 and SQLite's REAL *)
Definition floatOfPos (p : positive) : spec_float := binary_normalize 53 1024 (Zpos p) 0 false.
Definition binary64 : number :=
  mkNumber spec_float SFltb SFeqb (SFadd 53 1024) (SFmul 53 1024) (SFdiv 53 1024)
           (fun n => match n with O => S754_zero false | S _ => floatOfPos (Pos.of_nat n) end)
           (SFopp (floatOfPos 1)).

Section SqlOrderModel.
  Context {V : Type} (veqb : V -> V -> bool) (N : number).
  Notation num := (num N).

  (** sqlschema.go:487-500, 512-517: columns object key, "idx" REAL, value; the row id is implicit *)
  Record row := mkRow { rid : Z; key : Z; idx : num; val : V }.
  Notation table := (list row).

  (** *** SQL *)
  Definition before (a b : row) : bool :=
    ltn N (idx a) (idx b) || (negb (ltn N (idx b) (idx a)) && (rid a <? rid b)).
  Fixpoint place (x : row) (l : table) : table :=
    match l with [] => [x] | y :: l' => if before x y then x :: l else y :: place x l' end.
  Fixpoint sort (l : table) : table := match l with [] => [] | x :: l' => place x (sort l') end.
  (** SELECT ... WHERE key=? ORDER BY idx ASC *)
  Definition select (t : table) (k : Z) : table := sort (filter (fun r => key r =? k) t).
  Definition limitOffset (n : nat) (off : Z) (l : table) : table := firstn n (skipn (Z.to_nat off) l).
  Definition insert (t : table) (k : Z) (i : num) (v : V) : table :=
    t ++ [mkRow (fold_right (fun r m => Z.max (rid r) m) 0 t + 1) k i v].
  (** rowid IN (SELECT rowid ... LIMIT 1 OFFSET ?) *)
  Definition isRow (t : table) (k off : Z) (r : row) : bool :=
    existsb (fun x => rid x =? rid r) (limitOffset 1 off (select t k)).

  (** *** Store operations *)

  Definition one : num := ofNat N 1.
  (** 1.0 / (float64(nb) + 1) *)
  Definition increment (nb : nat) : num := divn N one (addn N (ofNat N nb) one).

  (** sqlstore.go:1937-1987; [None] is the error "not in list bounds" *)
  Definition getInsertIdx (t : table) (k : Z) (index : Z) (nb : nat) : option (num * num) :=
    if index =? 0 then
      match limitOffset 1 0 (select t k) with
      | r :: _ => Some (muln N (idx r) (increment nb), increment nb)
      | [] => Some (one, one)
      end
    else
      match limitOffset 2 (index - 1) (select t k) with
      | [] => None
      | [r] => Some (addn N (addn N (ofNat N 0) (idx r)) one, one)
      | r :: r' :: _ => Some (muln N (addn N (addn N (ofNat N 0) (idx r)) (idx r')) (increment nb), increment nb)
      end.

  (** insert several rows: sqlstore.go:1918-1933, sqlencoder.go:383-397 *)
  Fixpoint insertAll (t : table) (k : Z) (i inc : num) (vs : list V) : table :=
    match vs with [] => t | v :: vs' => insertAll (insert t k i v) k (addn N i inc) inc vs' end.

  Inductive sop :=
  | SEncode (k : Z) (vs : list V)              (* a new object is stored with its list *)
  | SAdd (k index : Z) (v : V)
  | SAddAll (k index : Z) (vs : list V)
  | SRemove (k index : Z)
  | SMove (k source target : Z)
  | SSet (k index : Z) (v : V)
  | SClear (k : Z)                             (* Clear, UnSet *)
  | SGet (k index : Z) | SSize (k : Z) | SIsEmpty (k : Z) | SContains (k : Z) (v : V)
  | SIndexOf (k : Z) (v : V) | SLastIndexOf (k : Z) (v : V) | SToArray (k : Z).
  Inductive sres := RUnit | RError | RVal (v : option V) | RInt (z : Z) | RBool (b : bool) | RList (l : list V).

  Definition valueAt (t : table) (k off : Z) : option V :=
    match limitOffset 1 off (select t k) with r :: _ => Some (val r) | [] => None end.

  (** sqlstore.go:1686-1734 with the queries at 242-285; [found] is the selected row *)
  Definition indexOf (t : table) (k : Z) (found : option row) : Z :=
    let i := match found with Some r => idx r | None => minusOne N end in
    if eqn N i (minusOne N) then -1
    else zlen (filter (fun r => (key r =? k) && ltn N (idx r) i) t).

  Definition sstep (t : table) (o : sop) : table * sres :=
    match o with
    | SEncode k vs => (insertAll t k one one vs, RUnit)
    (* sqlstore.go:1869-1894 *)
    | SAdd k index v =>
        match getInsertIdx t k index 1 with
        | Some (i, _) => (insert t k i v, RUnit)
        | None => (t, RError)
        end
    (* sqlstore.go:1904-1935 *)
    | SAddAll k index vs =>
        match getInsertIdx t k index (length vs) with
        | Some (i, inc) => (insertAll t k i inc vs, RUnit)
        | None => (t, RError)
        end
    (* sqlstore.go:2001-2032, query 300-318 *)
    | SRemove k index => (filter (fun r => negb (isRow t k index r)) t, RVal (valueAt t k index))
    (* sqlstore.go:2053-2095, query 131-149 *)
    | SMove k source target =>
        match getInsertIdx t k (if target >? source then target + 1 else target) 1 with
        | Some (i, _) =>
            (map (fun r => if isRow t k source r then mkRow (rid r) (key r) i (val r) else r) t, RVal (valueAt t k source))
        | None => (t, RError)
        end
    (* sqlstore.go:1432-1473, query 110-129 *)
    | SSet k index v =>
        (map (fun r => if isRow t k index r then mkRow (rid r) (key r) (idx r) v else r) t, RVal (valueAt t k index))
    (* sqlstore.go:2103-2120, 1558-1561, query 200-211 *)
    | SClear k => (filter (fun r => negb (key r =? k)) t, RUnit)
    (* sqlstore.go:1394-1418, query 151-167 *)
    | SGet k index => (t, RVal (valueAt t k index))
    (* sqlstore.go:1617-1642, query 213-224 *)
    | SSize k => (t, RInt (zlen (filter (fun r => key r =? k) t)))
    (* sqlstore.go:1578-1605, query 187-198 *)
    | SIsEmpty k => (t, RBool (negb (existsb (fun r => key r =? k) t)))
    (* sqlstore.go:1652-1684, query 226-240: the row id of some row, 0 when there is none *)
    | SContains k v =>
        (t, RBool (negb (fold_left (fun _ r => rid r) (filter (fun r => (key r =? k) && veqb (val r) v) t) 0 =? 0)))
    | SIndexOf k v => (t, RInt (indexOf t k (head (filter (fun r => veqb (val r) v) (select t k)))))
    | SLastIndexOf k v => (t, RInt (indexOf t k (head (rev (filter (fun r => veqb (val r) v) (select t k))))))
    (* sqlstore.go:2240-2278, query 169-185; the same order in sqldecoder.go:1092-1131 *)
    | SToArray k => (t, RList (map val (select t k)))
    end.
  Fixpoint srun (t : table) (h : list sop) : table :=
    match h with [] => t | o :: h' => srun (fst (sstep t o)) h' end.
End SqlOrderModel.
