(** Model of BasicEList (ecore/basicelist.go, with the public operations of ecore/abstractelist.go) over
    Go slices: arrays in memory, offsets, lengths and capacities.  [ListModel] is the same code over
    plain sequences.

    - The capacity that append gives to a new array is any value that is large enough: the language
      leaves it open, so [grow] is a parameter.
    - The calls of the list interface inside a call (Size, Get, Contains) are read from the slice.
    - Callbacks do nothing for BasicEList (basicelist.go:188-210) and are left out.
    - An immutable list (immutableEList.go:138-183) is its slice.
    - linkedhashset is modelled in [ListModel.getNonDuplicates]. *)
From Verif Require Import Base ListModel.

Section Slice.
  Context {A : Type} (eqb : A -> A -> bool) (nilv : A) (grow : nat -> nat -> nat).

  Record heap := Heap { arrays : nat -> list A; next : nat }.
  Record slice := Slice { arr : nat; off : nat; len : nat; cap : nat }.

  (** the elements of a slice *)
  Definition read (H : heap) (s : slice) : list A := firstn (len s) (skipn (off s) (arrays H (arr s))).
  Definition write (H : heap) (a pos : nat) (vs : list A) : heap :=
    Heap (fun b => if Nat.eqb b a
                   then firstn pos (arrays H a) ++ vs ++ skipn (pos + length vs) (arrays H a)
                   else arrays H b) (next H).
  (** a new array with [c] cells, the first holding [vs] *)
  Definition alloc (H : heap) (vs : list A) (c : nat) : heap * slice :=
    (Heap (fun b => if Nat.eqb b (next H) then vs ++ repeat nilv (c - length vs) else arrays H b) (S (next H)),
     Slice (next H) 0 (length vs) c).
  (** [append(s, vs...)] *)
  Definition append (H : heap) (s : slice) (vs : list A) : heap * slice :=
    let n := (len s + length vs)%nat in
    if (n <=? cap s)%nat then (write H (arr s) (off s + len s) vs, Slice (arr s) (off s) n (cap s))
    else alloc H (read H s ++ vs) (Nat.max n (grow (cap s) n)).
  (** [s[a:b]]: up to the capacity *)
  Definition reslice (s : slice) (a b : Z) : option slice :=
    if (0 <=? a) && (a <=? b) && (b <=? Z.of_nat (cap s))
    then Some (Slice (arr s) (off s + Z.to_nat a) (Z.to_nat (b - a)) (cap s - Z.to_nat a)) else None.
  (** [s[a:]] *)
  Definition from (s : slice) (a : Z) : option slice :=
    if a <=? Z.of_nat (len s) then reslice s a (Z.of_nat (len s)) else None.
  (** [s[i] = v] *)
  Definition store (H : heap) (s : slice) (i : Z) (v : A) : option heap :=
    if (0 <=? i) && (i <? Z.of_nat (len s)) then Some (write H (arr s) (off s + Z.to_nat i) [v]) else None.
  (** [copy(dst, src)] *)
  Definition copy (H : heap) (dst src : slice) : heap :=
    write H (arr dst) (off dst) (firstn (Nat.min (len dst) (len src)) (read H src)).

  (** basicelist.go:64-71 *)
  Definition doAddH (H : heap) (s : slice) (e : A) : option (heap * slice) := Some (append H s [e]).
  (** basicelist.go:73-83 *)
  Definition doAddAllH (H : heap) (s c : slice) : option (heap * slice) := Some (append H s (read H c)).
  (** basicelist.go:85-93 *)
  Definition doInsertH (H : heap) (s : slice) (i : Z) (e : A) : option (heap * slice) :=
    let '(H1, s1) := append H s [nilv] in
    let? dst := from s1 (i + 1) in
    let? src := from s1 i in
    let? H2 := store (copy H1 dst src) s1 i e in
    Some (H2, s1).
  (** basicelist.go:95-105: the inner append may write after the elements of the argument *)
  Definition doInsertAllH (H : heap) (s : slice) (i : Z) (c : slice) : option (heap * slice) :=
    let? pre := reslice s 0 i in
    let? post := from s i in
    let '(H1, t) := append H c (read H post) in
    Some (append H1 pre (read H1 t)).
  (** basicelist.go:107-123 *)
  Definition doMoveH (H : heap) (s : slice) (i j : Z) : option (heap * slice * A) :=
    let? object := zget (read H s) i in
    if i =? j then Some (H, s, object)
    else
      let? H1 :=
        (if j <? i
         then let? dst := from s (j + 1) in let? src := reslice s j i in Some (copy H dst src)
         else let? dst := from s i in let? src := reslice s (i + 1) (j + 1) in Some (copy H dst src)) in
      let? H2 := store H1 s j object in
      Some (H2, s, object).
  (** basicelist.go:125-139 *)
  Definition doRemoveH (H : heap) (s : slice) (i : Z) : option (heap * slice * A) :=
    let? object := zget (read H s) i in
    let? dst := from s i in
    let? src := from s (i + 1) in
    let? H1 := store (copy H dst src) s (Z.of_nat (len s) - 1) nilv in
    let? s1 := reslice s 0 (Z.of_nat (len s) - 1) in
    Some (H1, s1, object).
  (** basicelist.go:141-153.  The backup of the removed objects is not returned by RemoveRange. *)
  Definition doRemoveRangeH (H : heap) (s : slice) (i j : Z) : option (heap * slice) :=
    let? pre := reslice s 0 i in
    let? post := from s j in
    Some (append H pre (read H post)).
  (** basicelist.go:159-167 *)
  Definition doSetH (H : heap) (s : slice) (i : Z) (e : A) : option (heap * slice * A) :=
    let? old := zget (read H s) i in
    let? H1 := store H s i e in
    Some (H1, s, old).
  (** basicelist.go:169-177 *)
  Definition doClearH (H : heap) (s : slice) : option (heap * slice) := Some (alloc H [] 0).

  (** the argument of a bulk operation: another list, by its slice, or the list itself *)
  Inductive argument := Other (c : slice) | Itself.
  Definition argOf (s : slice) (c : argument) : slice := match c with Other c => c | Itself => s end.

  Inductive hop (C : Type) :=
  | HAdd (e : A) | HAddAll (c : C) | HInsert (i : Z) (e : A) | HInsertAll (i : Z) (c : C)
  | HMoveObject (i : Z) (e : A) | HMove (i j : Z)
  | HRemoveAt (i : Z) | HRemove (e : A) | HRemoveRange (i j : Z) | HRemoveAll (c : C)
  | HGet (i : Z) | HSet (i : Z) (e : A) | HClear
  | HSize | HEmpty | HContains (e : A) | HIndexOf (e : A).
  Arguments HAdd {C}. Arguments HAddAll {C}. Arguments HInsert {C}. Arguments HInsertAll {C}. Arguments HMoveObject {C}.
  Arguments HMove {C}. Arguments HRemoveAt {C}. Arguments HRemove {C}. Arguments HRemoveRange {C}. Arguments HRemoveAll {C}.
  Arguments HGet {C}. Arguments HSet {C}. Arguments HClear {C}. Arguments HSize {C}. Arguments HEmpty {C}.
  Arguments HContains {C}. Arguments HIndexOf {C}.
  (** the same operation with its argument looked up *)
  Definition lookup {C D} (g : C -> option D) (o : hop C) : option (hop D) :=
    match o with
    | HAddAll c => let? d := g c in Some (HAddAll d)
    | HInsertAll i c => let? d := g c in Some (HInsertAll i d)
    | HRemoveAll c => let? d := g c in Some (HRemoveAll d)
    | HAdd e => Some (HAdd e) | HInsert i e => Some (HInsert i e) | HMoveObject i e => Some (HMoveObject i e)
    | HMove i j => Some (HMove i j) | HRemoveAt i => Some (HRemoveAt i) | HRemove e => Some (HRemove e)
    | HRemoveRange i j => Some (HRemoveRange i j) | HGet i => Some (HGet i) | HSet i e => Some (HSet i e)
    | HClear => Some HClear | HSize => Some HSize | HEmpty => Some HEmpty | HContains e => Some (HContains e)
    | HIndexOf e => Some (HIndexOf e)
    end.

  Definition liftH {X} (o : option X) (f : X -> outcome (heap * slice) (res A)) : outcome (heap * slice) (res A) :=
    match o with Some x => f x | None => Panic end.

  (** abstractelist.go:178-188 *)
  Fixpoint removeAllLoopH (n : nat) (H : heap) (s : slice) (c : argument) (modified : bool)
    : outcome (heap * slice) (res A) :=
    match n with
    | O => Ret (H, s) (RBool modified)
    | S n' =>
        let i := Z.of_nat n' in
        liftH (zget (read H s) i) (fun v =>
          if contains eqb (read H (argOf s c)) v
          then if (i <? 0) || (i >=? Z.of_nat (len s)) then Panic
               else liftH (doRemoveH H s i) (fun '(H', s', _) => removeAllLoopH n' H' s' c true)
          else removeAllLoopH n' H s c modified)
    end.

  (** abstractelist.go:51-76: the elements to add of a unique list are put in a new array *)
  Definition nonDuplicates (H : heap) (s c : slice) : heap * slice :=
    let l := getNonDuplicates eqb (read H s) (read H c) in alloc H l (length l).

  Definition hstep (unique : bool) (H : heap) (s : slice) (o : hop argument) : outcome (heap * slice) (res A) :=
    let size := Z.of_nat (len s) in
    match o with
    (* abstractelist.go:78-85 *)
    | HAdd e => if unique && contains eqb (read H s) e then Ret (H, s) (RBool false)
                else liftH (doAddH H s e) (fun r => Ret r (RBool true))
    (* abstractelist.go:87-96 *)
    | HAddAll c =>
        let '(H1, l) := if unique then nonDuplicates H s (argOf s c) else (H, argOf s c) in
        if unique && Nat.eqb (len l) 0 then Ret (H1, s) (RBool false)
        else liftH (doAddAllH H1 s l) (fun r => Ret r (RBool true))
    (* abstractelist.go:98-108 *)
    | HInsert i e =>
        if (i <? 0) || (i >? size) then Panic
        else if unique && contains eqb (read H s) e then Ret (H, s) (RBool false)
        else liftH (doInsertH H s i e) (fun r => Ret r (RBool true))
    (* abstractelist.go:110-123 *)
    | HInsertAll i c =>
        if (i <? 0) || (i >? size) then Panic
        else
          let '(H1, l) := if unique then nonDuplicates H s (argOf s c) else (H, argOf s c) in
          if unique && Nat.eqb (len l) 0 then Ret (H1, s) (RBool false)
          else liftH (doInsertAllH H1 s i l) (fun r => Ret r (RBool true))
    (* abstractelist.go:125-132 *)
    | HMoveObject j e =>
        let i := indexOf eqb (read H s) e in
        if i =? -1 then Panic
        else liftH (doMoveH H s i j) (fun '(H', s', _) => Ret (H', s') RUnit)
    (* abstractelist.go:135-141 *)
    | HMove i j =>
        if (i <? 0) || (i >=? size) || (j <? 0) || (j >? size) then Panic
        else liftH (doMoveH H s i j) (fun '(H', s', x) => Ret (H', s') (RElem x))
    (* abstractelist.go:144-150 *)
    | HRemoveAt i =>
        if (i <? 0) || (i >=? size) then Panic
        else liftH (doRemoveH H s i) (fun '(H', s', x) => Ret (H', s') (RElem x))
    (* abstractelist.go:153-161 *)
    | HRemove e =>
        let i := indexOf eqb (read H s) e in
        if i =? -1 then Ret (H, s) (RBool false)
        else liftH (doRemoveH H s i) (fun '(H', s', _) => Ret (H', s') (RBool true))
    (* abstractelist.go:163-176 *)
    | HRemoveRange i j =>
        if (i <? 0) || (i >=? size) then Panic
        else if (j <? 0) || (j >? size) then Panic
        else if i >? j then Panic
        else liftH (doRemoveRangeH H s i j) (fun r => Ret r RUnit)
    (* abstractelist.go:178-188 *)
    | HRemoveAll c => removeAllLoopH (len s) H s c false
    (* abstractelist.go:191-197 *)
    | HGet i =>
        if (i <? 0) || (i >=? size) then Panic
        else liftH (zget (read H s) i) (fun v => Ret (H, s) (RElem v))
    (* abstractelist.go:200-212 *)
    | HSet i e =>
        if (i <? 0) || (i >=? size) then Panic
        else
          let currIndex := indexOf eqb (read H s) e in
          if unique && ((currIndex >=? 0) && negb (currIndex =? i)) then Panic
          else liftH (doSetH H s i e) (fun '(H', s', x) => Ret (H', s') (RElem x))
    (* abstractelist.go:214-216 *)
    | HClear => liftH (doClearH H s) (fun r => Ret r RUnit)
    (* basicelist.go:180-182, abstractelist.go:222-239 *)
    | HSize => Ret (H, s) (RInt size)
    | HEmpty => Ret (H, s) (RBool (size =? 0))
    | HContains e => Ret (H, s) (RBool (contains eqb (read H s) e))
    | HIndexOf e => Ret (H, s) (RInt (indexOf eqb (read H s) e))
    end.

  (** ** A program with lists and variables of type []any *)
  Record world := World { memory : heap; lists : nat -> option (slice * bool); vars : nat -> slice }.
  Definition setAt {X} (g : nat -> X) (k : nat) (v : X) : nat -> X := fun m => if Nat.eqb m k then v else g m.

  Inductive wop :=
  | New (h : nat) (unique : bool)                                    (* basicelist.go:31-38 *)
  | NewFrom (h : nat) (unique : bool) (v : nat)                      (* basicelist.go:40-56: of a variable *)
  | Make (v : nat) (l : list A) (spare : nat)                        (* a new slice with spare capacity *)
  | Take (v : nat) (h : nat)                                         (* v := h.ToArray(), basicelist.go:184-186 *)
  | Call (h : nat) (o : hop nat).                                    (* a call of h; lists by number *)

  Definition argument_of (w : world) (h c : nat) : option argument :=
    if Nat.eqb c h then Some Itself else let? (s, _) := lists w c in Some (Other s).
  Definition wstep (w : world) (o : wop) : option (world * option (res A)) :=
    match o with
    | New h u => let '(H, s) := alloc (memory w) [] 0 in Some (World H (setAt (lists w) h (Some (s, u))) (vars w), None)
    | NewFrom h u v => Some (World (memory w) (setAt (lists w) h (Some (vars w v, u))) (vars w), None)
    | Make v l n => let '(H, s) := alloc (memory w) l (length l + n) in Some (World H (lists w) (setAt (vars w) v s), None)
    | Take v h => let? (s, _) := lists w h in Some (World (memory w) (lists w) (setAt (vars w) v s), None)
    | Call h o =>
        let? (s, u) := lists w h in
        let? o' := lookup (argument_of w h) o in
        match hstep u (memory w) s o' with
        | Ret (H, s') r => Some (World H (setAt (lists w) h (Some (s', u))) (vars w), Some r)
        | Panic => None
        end
    end.
  (** nothing allocated: variables hold nil *)
  Definition start : world := World (Heap (fun _ => []) 1) (fun _ => None) (fun _ => Slice 0 0 0 0).
End Slice.

Arguments heap : clear implicits. Arguments hop : clear implicits. Arguments wop : clear implicits. Arguments world : clear implicits.
Arguments HAdd {A C}. Arguments HAddAll {A C}. Arguments HInsert {A C}. Arguments HInsertAll {A C}. Arguments HMoveObject {A C}.
Arguments HMove {A C}. Arguments HRemoveAt {A C}. Arguments HRemove {A C}. Arguments HRemoveRange {A C}. Arguments HRemoveAll {A C}.
Arguments HGet {A C}. Arguments HSet {A C}. Arguments HClear {A C}. Arguments HSize {A C}. Arguments HEmpty {A C}.
Arguments HContains {A C}. Arguments HIndexOf {A C}.
