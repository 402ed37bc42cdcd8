(** Model of store-backed lists (ecore/estorelist.go) and of the single-valued features of
    store-backed objects (ecore/estoreeobject_impl.go).

    The store is an interface (ecore/estore.go:16-60).  It is modelled by the contract its clients rely
    on: per (object, feature) a sequence of values, changed synchronously by each call; a call outside
    the bounds of that sequence is outside the contract and modelled as a panic.  Its [ToArray] returns
    a nil slice for the empty sequence, as the SQL store does (sqlstore.go:2276-2278, slices.Collect).
    The mutex is not modelled (one goroutine).  The inverse callbacks act on other objects: see
    GraphModel.  Lists whose elements may be proxies are modelled separately below (queries only). *)
From Verif Require Import Base ListModel NotifyModel.

Section StoreListModel.
  Context {A : Type} (eqb : A -> A -> bool) (nilv : A).

  (** *** The contract of EStore, ecore/estore.go:20-45 *)

  (** estore.go: Add(object, feature, index, value) *)
  Definition st_add (t : list A) (i : Z) (e : A) : option (list A) :=
    if (0 <=? i) && (i <=? zlen t)
    then Some (firstn (Z.to_nat i) t ++ e :: skipn (Z.to_nat i) t) else None.
  (** estore.go: AddAll(object, feature, index, collection) *)
  Definition st_add_all (t : list A) (i : Z) (l : list A) : option (list A) :=
    if (0 <=? i) && (i <=? zlen t)
    then Some (firstn (Z.to_nat i) t ++ l ++ skipn (Z.to_nat i) t) else None.
  (** estore.go: Get(object, feature, index) *)
  Definition st_get (t : list A) (i : Z) : option A :=
    if (0 <=? i) && (i <? zlen t) then nth_error t (Z.to_nat i) else None.
  (** estore.go: Remove(object, feature, index, needResult) *)
  Definition st_remove (t : list A) (i : Z) : option (list A * A) :=
    let? x := st_get t i in
    Some (firstn (Z.to_nat i) t ++ skipn (Z.to_nat i + 1) t, x).
  (** estore.go: Set(object, feature, index, value, needResult) *)
  Definition st_set (t : list A) (i : Z) (e : A) : option (list A * A) :=
    let? x := st_get t i in
    Some (firstn (Z.to_nat i) t ++ e :: skipn (Z.to_nat i + 1) t, x).
  (** estore.go: Move(object, feature, sourceIndex, targetIndex, needResult) *)
  Definition st_move (t : list A) (i j : Z) : option (list A * A) :=
    let? (t', x) := st_remove t i in
    let? t'' := st_add t' j x in
    Some (t'', x).
  (** estore.go: IndexOf, Contains *)
  Definition st_indexOf (t : list A) (e : A) : Z := indexOf eqb t e.
  Definition st_contains (t : list A) (e : A) : bool := existsb (fun x => eqb x e) t.
  (** sqlstore.go:2276-2278; [None] is a nil slice *)
  Definition st_toArray (t : list A) : option (list A) :=
    match t with [] => None | _ => Some t end.

  (** *** The list: ecore/estorelist.go:19-33.  [data = None] is a nil slice, [store = None] no store. *)
  Record slist := SL { data : option (list A); store : option (list A); cache : bool; size : Z }.

  (** Callbacks; [DidRemoveSlice] is DidRemove called with a slice for the removed element
      (estorelist.go:327). *)
  Inductive scallback := CB (c : callback A) | DidRemoveSlice (index : Z) (olds : list A).

  (** estorelist.go:42-56 (Initialize) *)
  Definition initialize (st : option (list A)) : slist :=
    match st with
    | Some t => SL None (Some t) false (zlen t)
    | None => SL (Some []) None false 0
    end.

  (** estorelist.go:120-137 (SetEStore), for a store other than the present one *)
  Definition setEStore (s : slist) (newStore : option (list A)) : slist :=
    match newStore with
    | None =>
        if cache s then SL (data s) None (cache s) (size s)
        else match store s with
             | Some t => SL (st_toArray t) None (cache s) (size s)
             | None => s   (* no store before, no store after: nothing changes *)
             end
    | Some t => SL (if cache s then data s else None) (Some t) (cache s) (size s)
    end.

  (** estorelist.go:140-177 (SetCache); the elements' own SetCache is not modelled *)
  Definition setCache (s : slist) (c : bool) : slist :=
    if Bool.eqb (cache s) c then s
    else if c
    then let d := match store s with Some t => st_toArray t | None => data s end in
         SL (Some (match d with Some d => d | None => [] end)) (store s) c (size s)
    else SL (match store s with Some _ => None | None => data s end) (store s) c (size s).

  (** The shape shared by the performXxx methods: first the cached data, then the store; when there is
      no cached data the store's result and the callbacks of the store branch are used. *)
  Definition perform {X} (s : slist) (fd : list A -> option (list A * X * list (callback A)))
      (fs : list A -> option (list A * X * list scallback)) (dflt : X) (newSize : X -> Z)
    : option (slist * X * list scallback) :=
    match data s with
    | Some d =>
        let? (d', x, cb) := fd d in
        let? t' := match store s with
                   | Some t => let? (t', _, _) := fs t in Some (Some t')
                   | None => Some None
                   end in
        Some (SL (Some d') t' (cache s) (newSize x), x, map CB cb)
    | None =>
        match store s with
        | Some t =>
            let? (t', x, cb) := fs t in
            Some (SL None (Some t') (cache s) (newSize x), x, cb)
        | None => Some (SL None None (cache s) (newSize dflt), dflt, [])
        end
    end.

  (** estorelist.go:186-207 *)
  Definition performAdd (s : slist) (e : A) : option (slist * unit * list scallback) :=
    perform s
      (fun d => let? (d', cb) := doAdd d e in Some (d', tt, cb))
      (fun t => let? t' := st_add t (size s) e in Some (t', tt, [CB (DidAdd (size s) e); CB DidChange]))
      tt (fun _ => size s + 1).

  (** estorelist.go:209-228 *)
  Definition performInsert (s : slist) (i : Z) (e : A) : option (slist * unit * list scallback) :=
    perform s
      (fun d => let? (d', cb) := doInsert nilv d i e in Some (d', tt, cb))
      (fun t => let? t' := st_add t i e in Some (t', tt, [CB (DidAdd i e); CB DidChange]))
      tt (fun _ => size s + 1).

  (** estorelist.go:257-283 *)
  Definition performClear (s : slist) : option (slist * list A * list scallback) :=
    perform s
      (fun d => doClear d)
      (fun t => Some ([], t, [CB (DidClear t)]))
      [] (fun _ => 0).

  (** estorelist.go:285-310 *)
  Definition performRemove (s : slist) (i : Z) : option (slist * A * list scallback) :=
    perform s
      (fun d => doRemove nilv d i)
      (fun t => let? (t', x) := st_remove t i in Some (t', x, [CB (DidRemove i x); CB DidChange]))
      nilv (fun _ => size s - 1).

  (** estorelist.go:324-328: [n] removals at [from], the results gathered so far being passed to the
      callback *)
  Fixpoint removeLoop (n : nat) (t : list A) (from : Z) (result : list A)
    : option (list A * list A * list scallback) :=
    match n with
    | O => Some (t, result, [])
    | S n' =>
        let? (t', x) := st_remove t from in
        let? (t'', result', cb) := removeLoop n' t' from (result ++ [x]) in
        Some (t'', result', DidRemoveSlice from (result ++ [x]) :: cb)
    end.

  (** estorelist.go:312-340 *)
  Definition performRemoveRange (s : slist) (from to : Z) : option (slist * list A * list scallback) :=
    perform s
      (fun d => doRemoveRange d from to)
      (fun t => let? (t', objects, cb) := removeLoop (Z.to_nat (to - from)) t from [] in
                Some (t', objects, cb ++ [CB DidChange]))
      [] (fun objects => size s - zlen objects).

  (** estorelist.go:342-363 *)
  Definition performSet (s : slist) (i : Z) (e : A) : option (slist * A * list scallback) :=
    perform s
      (fun d => doSet d i e)
      (fun t => let? (t', x) := st_set t i e in Some (t', x, [CB (DidSet i e x); CB DidChange]))
      nilv (fun _ => size s).

  (** estorelist.go:365-383 *)
  Definition performMove (s : slist) (i j : Z) : option (slist * A * list scallback) :=
    perform s
      (fun d => doMove d i j)
      (fun t => let? (t', x) := st_move t i j in Some (t', x, [CB (DidMove j x i); CB DidChange]))
      nilv (fun _ => size s).

  (** estorelist.go:391-398 (get); 385-389 (doGet) without proxies *)
  Definition get (s : slist) (i : Z) : option A :=
    match data s with
    | Some d => zget d i
    | None => match store s with Some t => st_get t i | None => Some nilv end
    end.

  (** elistiterator.go:12-30: Get(0), Get(1), ... while the cursor is smaller than Size() *)
  Fixpoint items_from (n : nat) (i : Z) (s : slist) : option (list A) :=
    match n with
    | O => Some []
    | S n' => let? x := get s i in let? l := items_from n' (i + 1) s in Some (x :: l)
    end.
  Definition items (s : slist) : option (list A) := items_from (Z.to_nat (size s)) 0 s.

  (** estorelist.go:451-471 *)
  Definition toArray (s : slist) : list A :=
    match data s with
    | Some d => d
    | None => match store s with
              | Some t => match st_toArray t with Some d => d | None => [] end
              | None => []
              end
    end.

  (** estorelist.go:485-510 *)
  Definition indexOf_s (s : slist) (e : A) : Z :=
    match data s with
    | Some d => indexOf eqb d e
    | None => match store s with Some t => st_indexOf t e | None => -1 end
    end.
  (** estorelist.go:512-531 *)
  Definition contains_s (s : slist) (e : A) : bool :=
    match data s with
    | Some d => negb (indexOf_s s e =? -1)
    | None => match store s with Some t => st_contains t e | None => false end
    end.

  (** The collection of a bulk addition: what ToArray gives ([now]), what iterating gives ([walk], the
      SQL store iterates, sqlstore.go:1914-1933) and its Size, each at the moment it is consulted. *)
  Record source := Source
    { now : slist -> list A; walk : slist -> option (list A); count : slist -> Z }.
  Definition fixed (l : list A) : source :=
    Source (fun _ => l) (fun _ => Some l) (fun _ => zlen l).
  Definition source_of (c : coll A) : source :=
    match c with
    | Ext l => fixed l
    | Self => Source toArray items size
    end.

  (** estorelist.go:230-255 *)
  Definition performInsertAll (s : slist) (i : Z) (c : source) : option (slist * bool * list scallback) :=
    match data s with
    | Some d =>
        let? (d', b, cb) := doInsertAll d i (now c s) in
        let s1 := SL (Some d') (store s) (cache s) (size s) in
        if negb b then Some (s1, false, map CB cb)
        else
          let? t' := match store s with
                     | Some t => let? l := walk c s1 in
                                 let? t' := st_add_all t i l in Some (Some t')
                     | None => Some None
                     end in
          let s2 := SL (Some d') t' (cache s) (size s) in
          Some (SL (Some d') t' (cache s) (size s + count c s2), true, map CB cb)
    | None =>
        match store s with
        | Some t =>
            let? l := walk c s in
            let? t' := st_add_all t i l in
            let s1 := SL None (Some t') (cache s) (size s) in
            Some (SL None (Some t') (cache s) (size s + count c s1), true,
                  map CB (didAddAll i (now c s1) [DidChange]))
        | None => Some (SL None None (cache s) (size s + count c s), true, [])
        end
    end.

  (** abstractelist.go:51-76 on the list *)
  Definition getNonDuplicates_s (s : slist) (collection : list A) : option (list A) :=
    let hashSet := fold_left (lhs_add eqb) collection [] in
    if size s <=? zlen hashSet
    then let? l := items s in Some (fold_left (fun h v => lhs_remove eqb v h) l hashSet)
    else Some (lhs_scan eqb 0 hashSet (contains_s s) hashSet).

  (** elements of an argument read by iterating it *)
  Definition elems_s (s : slist) (c : coll A) : option (list A) :=
    match c with Ext l => Some l | Self => items s end.

  (** basicenotifyinglist.go:322-324 *)
  Fixpoint removePositions_s (s : slist) (ps : list Z) : option (slist * list scallback) :=
    match ps with
    | [] => Some (s, [])
    | p :: ps' =>
        let? (s', _, cb) := performRemove s p in
        let? (s'', cb') := removePositions_s s' ps' in
        Some (s'', cb ++ cb')
    end.

  (** basicenotifyinglist.go:195-213 (doInsertAll) *)
  Definition doInsertAll_s (s : slist) (i : Z) (c : source)
    : option (slist * list (notification A) * list scallback) :=
    if count c s =? 0 then Some (s, [], [])
    else let? (s', _, cb) := performInsertAll s i c in
         Some (s', [addNotification i (now c s')], cb).

  Inductive sop :=
  | N (o : nop A)
  | SetCache (b : bool)
  | SetEStore (st : option (list A)).

  Definition sout := outcome (slist * list (notification A) * list scallback) (res A).
  Definition sret (s : slist) (ns : list (notification A)) (cb : list scallback) (r : res A) : sout :=
    Ret (s, ns, cb) r.
  Definition slift {X} (o : option X) (f : X -> sout) : sout :=
    match o with Some x => f x | None => Panic end.

  (** The bulk additions, abstractelist.go:87-96 and 110-123 after the bound check *)
  Definition bulk (unique : bool) (s : slist) (i : Z) (c : coll A) : sout :=
    if unique
    then slift (elems_s s c) (fun l0 =>
         slift (getNonDuplicates_s s l0) (fun l =>
           if zlen l =? 0 then sret s [] [] (RBool false)
           else slift (doInsertAll_s s i (fixed l)) (fun '(s', ns, cb) => sret s' ns cb (RBool true))))
    else slift (doInsertAll_s s i (source_of c)) (fun '(s', ns, cb) => sret s' ns cb (RBool true)).

  (** The public operations: those of abstractelist.go and basicenotifyinglist.go (as in
      [NotifyModel.nstep], same citations) calling the methods above. *)
  Definition sstep (unique : bool) (s : slist) (o : sop) : sout :=
    match o with
    | N (L (Add e)) =>
        if unique && contains_s s e then sret s [] [] (RBool false)
        else slift (performAdd s e) (fun '(s', _, cb) =>
               sret s' [Notif ADD PNil (PObj e) (size s)] cb (RBool true))
    | N (L (AddAll c)) => bulk unique s (size s) c
    | N (L (Insert i e)) =>
        if (i <? 0) || (i >? size s) then Panic
        else if unique && contains_s s e then sret s [] [] (RBool false)
        else slift (performInsert s i e) (fun '(s', _, cb) =>
               sret s' [Notif ADD PNil (PObj e) i] cb (RBool true))
    | N (L (InsertAll i c)) =>
        if (i <? 0) || (i >? size s) then Panic else bulk unique s i c
    | N (L (MoveObject i e)) =>
        let oldIndex := indexOf_s s e in
        if oldIndex =? -1 then Panic
        else slift (performMove s oldIndex i) (fun '(s', x, cb) =>
               sret s' [Notif MOVE (PInt oldIndex) (PObj x) i] cb RUnit)
    | N (L (Move i j)) =>
        if (i <? 0) || (i >=? size s) || (j <? 0) || (j >? size s) then Panic
        else slift (performMove s i j) (fun '(s', x, cb) =>
               sret s' [Notif MOVE (PInt i) (PObj x) j] cb (RElem x))
    | N (L (RemoveAt i)) =>
        if (i <? 0) || (i >=? size s) then Panic
        else slift (performRemove s i) (fun '(s', x, cb) =>
               sret s' [Notif REMOVE (PObj x) PNil i] cb (RElem x))
    | N (L (Remove e)) =>
        let index := indexOf_s s e in
        if index =? -1 then sret s [] [] (RBool false)
        else slift (performRemove s index) (fun '(s', x, cb) =>
               sret s' [Notif REMOVE (PObj x) PNil index] cb (RBool true))
    | N (L (RemoveRange i j)) =>
        if (i <? 0) || (i >=? size s) then Panic
        else if (j <? 0) || (j >? size s) then Panic
        else if i >? j then Panic
        else slift (performRemoveRange s i j) (fun '(s', objects, cb) =>
               sret s' (if zlen objects >? 0
                        then [removeNotification objects (positionsFrom i objects) i] else []) cb RUnit)
    | N (L (RemoveAll c)) =>
        slift (elems_s s c) (fun l =>
        slift (match l with [] => Some [] | _ => items s end) (fun its =>
          let pr := scanRemoved eqb 0 its l in
          slift (removePositions_s s (rev (map fst pr))) (fun '(s', cb) =>
            match pr with
            | [] => sret s' [] cb (RBool false)
            | (p, _) :: _ => sret s' [removeNotification (map snd pr) (map fst pr) p] cb (RBool true)
            end)))
    | N (L (Get i)) =>
        if (i <? 0) || (i >=? size s) then Panic
        else slift (get s i) (fun v => sret s [] [] (RElem v))
    | N (L (SetAt i e)) =>
        if (i <? 0) || (i >=? size s) then Panic
        else
          let currIndex := indexOf_s s e in
          if unique && ((currIndex >=? 0) && negb (currIndex =? i)) then Panic
          else slift (performSet s i e) (fun '(s', old, cb) =>
                 sret s' (if eqb e old then [] else [Notif SET (PObj old) (PObj e) i]) cb (RElem old))
    | N (L Clear) =>
        slift (performClear s) (fun '(s', old, cb) =>
          sret s' [match old with
                   | [x] => Notif REMOVE (PObj x) PNil 0
                   | _ => Notif REMOVE_MANY (PObjs old) PNil (-1)
                   end] cb RUnit)
    | N (L Size) => sret s [] [] (RInt (size s))                 (* estorelist.go:473-477 *)
    | N (L Empty) => sret s [] [] (RBool (size s =? 0))          (* estorelist.go:479-483 *)
    | N (L (Contains e)) => sret s [] [] (RBool (contains_s s e))
    | N (L (IndexOf e)) => sret s [] [] (RInt (indexOf_s s e))
    | N (L ToArray) => sret s [] [] (RList (toArray s))
    | N (AddWithNotification e) =>
        slift (performAdd s e) (fun '(s', _, cb) =>
          sret s' [Notif ADD PNil (PObj e) (size s)] cb RUnit)
    | N (RemoveWithNotification e) =>
        let index := indexOf_s s e in
        if index =? -1 then sret s [] [] RUnit
        else slift (performRemove s index) (fun '(s', x, cb) =>
               sret s' [Notif REMOVE (PObj x) PNil index] cb RUnit)
    | N (SetWithNotification i e) =>
        slift (performSet s i e) (fun '(s', old, cb) =>
          sret s' [Notif SET (PObj old) (PObj e) i] cb RUnit)
    | SetCache b => sret (setCache s b) [] [] RUnit
    | SetEStore st => sret (setEStore s st) [] [] RUnit
    end.

  (** A history: per call the result, the notifications and the callbacks; final state or [None]. *)
  Fixpoint srun (unique : bool) (s : slist) (ops : list sop)
    : list (res A * list (notification A) * list scallback) * option slist :=
    match ops with
    | [] => ([], Some s)
    | o :: ops' =>
        match sstep unique s o with
        | Panic => ([], None)
        | Ret (s', ns, cb) r => let '(rs, fin) := srun unique s' ops' in ((r, ns, cb) :: rs, fin)
        end
    end.

  (** *** Queries of a list whose elements may be proxies (list.object && list.proxies).
      [res x] is EResolveProxy for a proxy (estorelist.go:422-427) and [x] otherwise.  The RESOLVE
      notification and the inverse of contained proxies are not modelled. *)
  Section Proxies.
    Context (res : A -> A).

    (** estorelist.go:400-420: the cached element is replaced, the store is not *)
    Definition resolveAt (s : slist) (i : Z) (x : A) : option (slist * A) :=
      let r := res x in
      if eqb r x then Some (s, r)
      else match data s with
           | Some d => let? d' := zset d i r in Some (SL (Some d') (store s) (cache s) (size s), r)
           | None => Some (s, r)
           end.

    (** abstractelist.go:191-197, estorelist.go:385-389 *)
    Definition pGet (s : slist) (i : Z) : option (slist * A) :=
      if (i <? 0) || (i >=? size s) then None
      else let? x := get s i in resolveAt s i x.

    (** estorelist.go:489-493: scan of the cached data, resolving as it goes *)
    Fixpoint pScan (i : Z) (d : list A) (e : A) : list A * Z :=
      match d with
      | [] => ([], -1)
      | v :: d' =>
          if eqb v e then (d, i)
          else if eqb (res v) e then (res v :: d', i)
          else let '(d'', k) := pScan (i + 1) d' e in (res v :: d'', k)
      end.
    (** estorelist.go:500-506 *)
    Fixpoint pFind (n : nat) (i : Z) (t : list A) (e : A) : option Z :=
      match n with
      | O => Some (-1)
      | S n' => let? x := st_get t i in
                if eqb e (res x) then Some i else pFind n' (i + 1) t e
      end.
    (** estorelist.go:485-510 *)
    Definition pIndexOf (s : slist) (e : A) : option (slist * Z) :=
      match data s with
      | Some d => let '(d', k) := pScan 0 d e in
                  Some (SL (Some d') (store s) (cache s) (size s), k)
      | None =>
          match store s with
          | Some t =>
              let k := st_indexOf t e in
              if k >=? 0 then Some (s, k)
              else let? k := pFind (Z.to_nat (size s)) 0 t e in Some (s, k)
          | None => Some (s, -1)
          end
      end.
    (** estorelist.go:512-531 *)
    Definition pContains (s : slist) (e : A) : option (slist * bool) :=
      match data s with
      | Some _ => let? (s', k) := pIndexOf s e in Some (s', negb (k =? -1))
      | None =>
          match store s with
          | Some t =>
              if st_contains t e then Some (s, true)
              else let? k := pFind (Z.to_nat (size s)) 0 t e in Some (s, negb (k =? -1))
          | None => Some (s, false)
          end
      end.
    (** estorelist.go:451-471 *)
    Definition pToArray (s : slist) : slist * list A :=
      match data s with
      | Some d => (SL (Some (map res d)) (store s) (cache s) (size s), map res d)
      | None =>
          match store s with
          | Some t => (s, map res (match st_toArray t with Some d => d | None => [] end))
          | None => (s, [])
          end
      end.

    Inductive query := QGet (i : Z) | QIndexOf (e : A) | QContains (e : A) | QToArray | QSize
                     | QSetCache (b : bool).
    Definition qstep (s : slist) (q : query) : option (slist * ListModel.res A) :=
      match q with
      | QGet i => let? (s', x) := pGet s i in Some (s', RElem x)
      | QIndexOf e => let? (s', k) := pIndexOf s e in Some (s', RInt k)
      | QContains e => let? (s', b) := pContains s e in Some (s', RBool b)
      | QToArray => let '(s', l) := pToArray s in Some (s', RList l)
      | QSize => Some (s, RInt (size s))
      | QSetCache b => Some (setCache s b, RUnit)
      end.
    Fixpoint qrun (s : slist) (qs : list query) : option (list (ListModel.res A)) :=
      match qs with
      | [] => Some []
      | q :: qs' => let? (s', r) := qstep s q in let? rs := qrun s' qs' in Some (r :: rs)
      end.
  End Proxies.

  (** *** Single-valued features of a store-backed object, ecore/estoreeobject_impl.go *)

  (** A feature is its dynamic feature identifier with its transience; values are [option A], [None]
      being nil.  The store keeps what was written: [Some v] after Set, [None] when never set or unset. *)
  Record feature := Feature { fid : nat; transient : bool }.
  Definition fmap := nat -> option (option A).

  Record sobject := SO { props : nat -> option A;         (* properties; all nil when the slice is nil *)
                         ostore : option fmap; ocache : bool }.

  Definition upd {X} (m : nat -> X) (k : nat) (v : X) : nat -> X :=
    fun k' => if (k' =? k)%nat then v else m k'.

  (** the value of a feature in the store, nil when absent *)
  Definition stored (m : fmap) (f : feature) : option A :=
    match m (fid f) with Some v => v | None => None end.

  (** estoreeobject_impl.go:189-226 (EDynamicGet), feature not many *)
  Definition oGet (o : sobject) (f : feature) : sobject * option A :=
    match props o (fid f) with
    | Some v => (o, Some v)
    | None =>
        if transient f then (o, None)
        else match ostore o with
             | Some m => let v := stored m f in
                         (if ocache o then SO (upd (props o) (fid f) v) (ostore o) (ocache o) else o, v)
             | None => (o, None)
             end
    end.

  (** estoreeobject_impl.go:228-250 (EDynamicSet) *)
  Definition oSet (o : sobject) (f : feature) (v : option A) : sobject :=
    match ostore o with
    | Some m =>
        if transient f then SO (upd (props o) (fid f) v) (ostore o) (ocache o)
        else SO (if ocache o then upd (props o) (fid f) v else props o)
                (Some (upd m (fid f) (Some v))) (ocache o)
    | None => SO (upd (props o) (fid f) v) None (ocache o)
    end.

  (** estoreeobject_impl.go:252-264 (EDynamicUnset) *)
  Definition oUnset (o : sobject) (f : feature) : sobject :=
    let p := upd (props o) (fid f) None in
    match ostore o with
    | Some m => if transient f then SO p (ostore o) (ocache o)
                else SO p (Some (upd m (fid f) None)) (ocache o)
    | None => SO p None (ocache o)
    end.

  (** estoreeobject_impl.go:175-187 (EDynamicIsSet) *)
  Definition oIsSet (o : sobject) (f : feature) : bool :=
    match props o (fid f) with
    | Some _ => true
    | None => match ostore o with
              | Some m => match m (fid f) with Some _ => true | None => false end
              | None => false
              end
    end.

  (** estoreeobject_impl.go:99-114 (SetCache) *)
  Definition oSetCache (o : sobject) (c : bool) : sobject :=
    if Bool.eqb (ocache o) c then o
    else SO (match ostore o with Some _ => fun _ => None | None => props o end) (ostore o) c.

  Inductive oop := OGet (f : feature) | OSet (f : feature) (v : option A) | OUnset (f : feature)
                 | OIsSet (f : feature) | OSetCache (c : bool).
  Inductive ores := OUnit | OVal (v : option A) | OBool (b : bool).
  Definition ostep (o : sobject) (c : oop) : sobject * ores :=
    match c with
    | OGet f => let '(o', v) := oGet o f in (o', OVal v)
    | OSet f v => (oSet o f v, OUnit)
    | OUnset f => (oUnset o f, OUnit)
    | OIsSet f => (o, OBool (oIsSet o f))
    | OSetCache b => (oSetCache o b, OUnit)
    end.
  Fixpoint orun (o : sobject) (cs : list oop) : list ores :=
    match cs with
    | [] => []
    | c :: cs' => let '(o', r) := ostep o c in r :: orun o' cs'
    end.
End StoreListModel.

Arguments scallback : clear implicits.
Arguments sop : clear implicits.
Arguments slist : clear implicits.
Arguments query : clear implicits.
Arguments oop : clear implicits.
Arguments ores : clear implicits.
Arguments sobject : clear implicits.
