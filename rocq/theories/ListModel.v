(** Model of the array lists of soft.go: ecore/abstractelist.go and ecore/basicelist.go.

    A list value is the Go slice [data]; [nilv] is Go's untyped [nil] stored by [append(list.data, nil)].
    Elements are compared with Go's [==], modelled by a decidable equality.
    Simplification: comparing two uncomparable dynamic values (e.g. slices) panics in Go; the element
    type here has a total equality. *)
From Verif Require Import Base.

Section ListModel.
  Context {A : Type} (eqb : A -> A -> bool) (nilv : A).

  (** Callbacks of ecore/basicelist.go:12-24 (listCallBacks), recorded in call order. *)
  Inductive callback :=
  | DidAdd (index : Z) (e : A)
  | DidSet (index : Z) (new old : A)
  | DidRemove (index : Z) (old : A)
  | DidClear (old : list A)
  | DidMove (newIndex : Z) (e : A) (oldIndex : Z)
  | DidChange.

  (** The argument of AddAll/InsertAll/RemoveAll: an independent collection or the list itself. *)
  Inductive coll := Ext (l : list A) | Self.
  (** ToArray()/iteration of the argument at call time; basicelist.go:184-186, elistiterator.go:12-30 *)
  Definition elems (data : list A) (c : coll) : list A :=
    match c with Ext l => l | Self => data end.

  (** ecore/abstractelist.go:231-239 (IndexOf) through elistiterator.go:12-30 *)
  Fixpoint indexOf_from (i : Z) (l : list A) (e : A) : Z :=
    match l with
    | [] => -1
    | v :: l' => if eqb v e then i else indexOf_from (i + 1) l' e
    end.
  Definition indexOf (l : list A) (e : A) : Z := indexOf_from 0 l e.

  (** ecore/abstractelist.go:227-229 (Contains) *)
  Definition contains (l : list A) (e : A) : bool := negb (indexOf l e =? -1).

  (** github.com/ugurcsen/gods-generic linkedhashset: the insertion-ordered list of its elements.
      [Add] appends when absent, [Remove] deletes the element. Third-party code, not in /repo. *)
  Definition lhs_add (s : list A) (v : A) : list A := if contains s v then s else s ++ [v].
  Fixpoint lhs_remove (v : A) (s : list A) : list A :=
    match s with
    | [] => []
    | x :: s' => if eqb x v then s' else x :: lhs_remove v s'
    end.

  (** Iteration of a gods linkedhashset while it is being modified (abstractelist.go:64-69).
      The iterator of the underlying doubly linked list increments its index, then stops as soon as
      the index is not smaller than the *current* size; otherwise it follows the [next] pointer of the
      last visited node, which removal leaves intact. So the k-th element of the original order is
      visited exactly when k is smaller than the size at that moment. *)
  Fixpoint lhs_scan (k : nat) (rest : list A) (inList : A -> bool) (s : list A) : list A :=
    match rest with
    | [] => s
    | v :: rest' =>
        if (k <? length s)%nat
        then lhs_scan (S k) rest' inList (if inList v then lhs_remove v s else s)
        else s
    end.

  (** ecore/abstractelist.go:51-76 (getNonDuplicates) *)
  Definition getNonDuplicates (data : list A) (collection : list A) : list A :=
    let hashSet := fold_left lhs_add collection [] in
    if zlen data <=? zlen hashSet
    then fold_left (fun s v => lhs_remove v s) data hashSet
    else lhs_scan 0 hashSet (contains data) hashSet.

  (** *** The doXxx primitives of BasicEList.  [None] = panic.
      Each returns the new slice, the result, and the callbacks. *)

  (** ecore/basicelist.go:64-71 (doAdd) *)
  Definition doAdd (data : list A) (e : A) : option (list A * list callback) :=
    Some (data ++ [e], [DidAdd (zlen data) e; DidChange]).

  (** callbacks of a bulk addition *)
  Fixpoint didAddAll (i : Z) (l : list A) (sep : list callback) : list callback :=
    match l with
    | [] => []
    | e :: l' => DidAdd i e :: sep ++ didAddAll (i + 1) l' sep
    end.

  (** ecore/basicelist.go:73-83 (doAddAll): the callback index is [i], not [size+i] *)
  Definition doAddAll (data : list A) (c : list A) : option (list A * bool * list callback) :=
    Some (data ++ c, negb (zlen c =? 0), didAddAll 0 c [] ++ [DidChange]).

  (** ecore/basicelist.go:85-93 (doInsert) *)
  Definition doInsert (data : list A) (index : Z) (e : A) : option (list A * list callback) :=
    let d1 := data ++ [nilv] in
    let? src := zslice d1 index (zlen d1) in
    let? d2 := zcopy d1 (index + 1) src in
    let? d3 := zset d2 index e in
    Some (d3, [DidAdd index e; DidChange]).

  (** ecore/basicelist.go:95-105 (doInsertAll) *)
  Definition doInsertAll (data : list A) (index : Z) (c : list A) : option (list A * bool * list callback) :=
    let? pre := zslice data 0 index in
    let? post := zslice data index (zlen data) in
    Some (pre ++ (c ++ post), negb (zlen c =? 0), didAddAll index c [DidChange]).

  (** ecore/basicelist.go:107-123 (doMove) *)
  Definition doMove (data : list A) (oldIndex newIndex : Z) : option (list A * A * list callback) :=
    let? object := zget data oldIndex in
    if oldIndex =? newIndex then Some (data, object, [])
    else
      let? d1 :=
        (if newIndex <? oldIndex
         then let? src := zslice data newIndex oldIndex in zcopy data (newIndex + 1) src
         else let? src := zslice data (oldIndex + 1) (newIndex + 1) in zcopy data oldIndex src) in
      let? d2 := zset d1 newIndex object in
      Some (d2, object, [DidMove newIndex object oldIndex; DidChange]).

  (** ecore/basicelist.go:125-139 (doRemove) *)
  Definition doRemove (data : list A) (index : Z) : option (list A * A * list callback) :=
    let? object := zget data index in
    let? src := zslice data (index + 1) (zlen data) in
    let? d1 := zcopy data index src in
    let? d2 := zset d1 (zlen d1 - 1) nilv in
    let? d3 := zslice d2 0 (zlen d2 - 1) in
    Some (d3, object, [DidRemove index object; DidChange]).

  (** callbacks of ecore/basicelist.go:148-150 *)
  Fixpoint didRemoveDown (objects_rev : list A) (i : Z) : list callback :=
    match objects_rev with
    | [] => []
    | o :: r => DidRemove i o :: didRemoveDown r (i - 1)
    end.

  (** ecore/basicelist.go:141-153 (doRemoveRange) *)
  Definition doRemoveRange (data : list A) (from to : Z) : option (list A * list A * list callback) :=
    let? objects := zslice data from to in
    let? pre := zslice data 0 from in
    let? post := zslice data to (zlen data) in
    Some (pre ++ post, objects, didRemoveDown (rev objects) (to - 1) ++ [DidChange]).

  (** ecore/basicelist.go:155-157 (doGet) *)
  Definition doGet (data : list A) (index : Z) : option A := zget data index.

  (** ecore/basicelist.go:159-167 (doSet) *)
  Definition doSet (data : list A) (index : Z) (e : A) : option (list A * A * list callback) :=
    let? old := zget data index in
    let? d := zset data index e in
    Some (d, old, [DidSet index e old; DidChange]).

  (** ecore/basicelist.go:169-177 (doClear) *)
  Definition doClear (data : list A) : option (list A * list A * list callback) :=
    Some ([], data, [DidClear data]).

  (** *** Public operations, ecore/abstractelist.go *)

  Inductive op :=
  | Add (e : A) | AddAll (c : coll) | Insert (i : Z) (e : A) | InsertAll (i : Z) (c : coll)
  | MoveObject (i : Z) (e : A) | Move (i j : Z)
  | RemoveAt (i : Z) | Remove (e : A) | RemoveRange (i j : Z) | RemoveAll (c : coll)
  | Get (i : Z) | SetAt (i : Z) (e : A) | Clear
  | Size | Empty | Contains (e : A) | IndexOf (e : A) | ToArray.

  Inductive res := RUnit | RBool (b : bool) | RElem (e : A) | RInt (z : Z) | RList (l : list A).

  (** Sequence with the callbacks fired so far. *)
  Definition st := (list A * list callback)%type.
  Definition ret (data : list A) (cb : list callback) (r : res) : outcome (list A * list callback) res :=
    Ret (data, cb) r.
  Definition lift {X} (o : option X) (f : X -> outcome (list A * list callback) res)
    : outcome (list A * list callback) res :=
    match o with Some x => f x | None => Panic end.

  (** abstractelist.go:178-188 (RemoveAll): for i := Size()-1; i >= 0; i-- ... ; [n] is i+1.
      [contains] consults the argument, which may be the list itself. *)
  Fixpoint removeAllLoop (n : nat) (data : list A) (c : coll) (cb : list callback) (modified : bool)
    : outcome (list A * list callback) res :=
    match n with
    | O => ret data cb (RBool modified)
    | S n' =>
        let i := Z.of_nat n' in
        lift (doGet data i) (fun v =>
          if contains (elems data c) v
          then (* l.RemoveAt(i), abstractelist.go:144-150 *)
               if (i <? 0) || (i >=? zlen data) then Panic
               else lift (doRemove data i) (fun '(data', _, cb') =>
                      removeAllLoop n' data' c (cb ++ cb') true)
          else removeAllLoop n' data c cb modified)
    end.

  Definition step (unique : bool) (data : list A) (o : op) : outcome (list A * list callback) res :=
    match o with
    (* abstractelist.go:78-85 *)
    | Add e => if unique && contains data e then ret data [] (RBool false)
               else lift (doAdd data e) (fun '(d, cb) => ret d cb (RBool true))
    (* abstractelist.go:87-96 *)
    | AddAll c =>
        let l := if unique then getNonDuplicates data (elems data c) else elems data c in
        if unique && (zlen l =? 0) then ret data [] (RBool false)
        else lift (doAddAll data l) (fun '(d, _, cb) => ret d cb (RBool true))
    (* abstractelist.go:98-108 *)
    | Insert i e =>
        if (i <? 0) || (i >? zlen data) then Panic
        else if unique && contains data e then ret data [] (RBool false)
        else lift (doInsert data i e) (fun '(d, cb) => ret d cb (RBool true))
    (* abstractelist.go:110-123 *)
    | InsertAll i c =>
        if (i <? 0) || (i >? zlen data) then Panic
        else
          let l := if unique then getNonDuplicates data (elems data c) else elems data c in
          if unique && (zlen l =? 0) then ret data [] (RBool false)
          else lift (doInsertAll data i l) (fun '(d, _, cb) => ret d cb (RBool true))
    (* abstractelist.go:125-132 *)
    | MoveObject i e =>
        let oldIndex := indexOf data e in
        if oldIndex =? -1 then Panic
        else lift (doMove data oldIndex i) (fun '(d, _, cb) => ret d cb RUnit)
    (* abstractelist.go:135-141 *)
    | Move i j =>
        if (i <? 0) || (i >=? zlen data) || (j <? 0) || (j >? zlen data) then Panic
        else lift (doMove data i j) (fun '(d, o, cb) => ret d cb (RElem o))
    (* abstractelist.go:144-150 *)
    | RemoveAt i =>
        if (i <? 0) || (i >=? zlen data) then Panic
        else lift (doRemove data i) (fun '(d, o, cb) => ret d cb (RElem o))
    (* abstractelist.go:153-161 *)
    | Remove e =>
        let index := indexOf data e in
        if index =? -1 then ret data [] (RBool false)
        else lift (doRemove data index) (fun '(d, _, cb) => ret d cb (RBool true))
    (* abstractelist.go:163-176 *)
    | RemoveRange i j =>
        if (i <? 0) || (i >=? zlen data) then Panic
        else if (j <? 0) || (j >? zlen data) then Panic
        else if i >? j then Panic
        else lift (doRemoveRange data i j) (fun '(d, _, cb) => ret d cb RUnit)
    (* abstractelist.go:178-188 *)
    | RemoveAll c => removeAllLoop (length data) data c [] false
    (* abstractelist.go:191-197 *)
    | Get i =>
        if (i <? 0) || (i >=? zlen data) then Panic
        else lift (doGet data i) (fun v => ret data [] (RElem v))
    (* abstractelist.go:200-212 *)
    | SetAt i e =>
        if (i <? 0) || (i >=? zlen data) then Panic
        else
          let currIndex := indexOf data e in
          if unique && ((currIndex >=? 0) && negb (currIndex =? i)) then Panic
          else lift (doSet data i e) (fun '(d, o, cb) => ret d cb (RElem o))
    (* abstractelist.go:214-216 *)
    | Clear => lift (doClear data) (fun '(d, _, cb) => ret d cb RUnit)
    (* basicelist.go:180-182 *)
    | Size => ret data [] (RInt (zlen data))
    (* abstractelist.go:222-224 *)
    | Empty => ret data [] (RBool (zlen data =? 0))
    (* abstractelist.go:227-229 *)
    | Contains e => ret data [] (RBool (contains data e))
    (* abstractelist.go:231-239 *)
    | IndexOf e => ret data [] (RInt (indexOf data e))
    (* basicelist.go:184-186 *)
    | ToArray => ret data [] (RList data)
    end.

  (** A history of calls: the results in order, then the final contents, or [None] when the last
      call made panicked (the history stops there). *)
  Fixpoint run (unique : bool) (data : list A) (ops : list op) : list res * option (list A) :=
    match ops with
    | [] => ([], Some data)
    | o :: ops' =>
        match step unique data o with
        | Panic => ([], None)
        | Ret (d, _) r => let '(rs, fin) := run unique d ops' in (r :: rs, fin)
        end
    end.
End ListModel.

Arguments callback : clear implicits.
Arguments coll : clear implicits.
Arguments op : clear implicits.
Arguments res : clear implicits.
