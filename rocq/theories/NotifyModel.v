(** Model of notifying lists (ecore/basicenotifyinglist.go) and of notifications
    (ecore/abstractnotification.go, ecore/notificationchain.go).

    The owner of the list is assumed to deliver notifications and to have at least one adapter
    (isNotificationRequired, basicenotifyinglist.go:97-100, returns true); the inverse callbacks of the
    plain notifying list are the identity (basicenotifyinglist.go:140-146).  The inverse callbacks of
    reference lists act on *other* objects and are modelled in GraphModel. *)
From Verif Require Import Base ListModel.

Section NotifyModel.
  Context {A : Type} (eqb : A -> A -> bool) (nilv : A).

  (** ecore/enotification.go:19-42 *)
  Inductive eventType := SET | UNSET | ADD | REMOVE | ADD_MANY | REMOVE_MANY | MOVE.

  (** The values a notification carries: nil, an element, an index, a slice of elements, a slice of
      positions (Go uses [any] and [[]any]). *)
  Inductive payload :=
  | PNil | PObj (a : A) | PInt (z : Z) | PObjs (l : list A) | PInts (l : list Z).

  (** ecore/abstractnotification.go:12-32.  Notifier and feature are those of the list and implicit. *)
  Record notification := Notif
    { evt : eventType; oldValue : payload; newValue : payload; position : Z }.

  Definition nout := outcome (list A * list notification) (res A).
  Definition nret (d : list A) (ns : list notification) (r : res A) : nout := Ret (d, ns) r.
  Definition nlift {X} (o : option X) (f : X -> nout) : nout :=
    match o with Some x => f x | None => Panic end.

  (** basicenotifyinglist.go:206-210: ADD for one element, ADD_MANY otherwise; [l] is read *after* the
      insertion, so it is the argument as it is then. *)
  Definition addNotification (index : Z) (l : list A) : notification :=
    match l with
    | [x] => Notif ADD PNil (PObj x) index
    | _ => Notif ADD_MANY PNil (PObjs l) index
    end.

  (** basicenotifyinglist.go:195-213 (doInsertAll); [late d] is the argument read after the insertion *)
  Definition ndoInsertAll (data : list A) (index : Z) (l : list A) (late : list A -> list A)
    : option (list A * list notification) :=
    match l with
    | [] => Some (data, [])
    | _ =>
        let? (d, _, _) := doInsertAll data index l in
        Some (d, [addNotification index (late d)])
    end.

  (** basicenotifyinglist.go:279-287 and 336-340 *)
  Definition removeNotification (objects : list A) (positions : list Z) (pos : Z) : notification :=
    match objects with
    | [x] => Notif REMOVE (PObj x) PNil pos
    | _ => Notif REMOVE_MANY (PObjs objects) (PInts positions) pos
    end.

  (** positions [from, from+1, ...] of basicenotifyinglist.go:282-285 *)
  Fixpoint positionsFrom (from : Z) (l : list A) : list Z :=
    match l with [] => [] | _ :: l' => from :: positionsFrom (from + 1) l' end.

  (** basicenotifyinglist.go:306-319: for each index, the first equal element of the collection *)
  Fixpoint firstMatch (v : A) (c : list A) : option A :=
    match c with
    | [] => None
    | x :: c' => if eqb v x then Some x else firstMatch v c'
    end.
  Fixpoint scanRemoved (i : Z) (data c : list A) : list (Z * A) :=
    match data with
    | [] => []
    | v :: data' =>
        match firstMatch v c with
        | Some x => (i, x) :: scanRemoved (i + 1) data' c
        | None => scanRemoved (i + 1) data' c
        end
    end.
  (** basicenotifyinglist.go:322-324: performRemove from the last position to the first *)
  Fixpoint removePositions (data : list A) (rev_positions : list Z) : option (list A) :=
    match rev_positions with
    | [] => Some data
    | p :: ps => let? (d, _, _) := doRemove nilv data p in removePositions d ps
    end.

  Inductive nop :=
  | L (o : op A)
  | AddWithNotification (e : A)
  | RemoveWithNotification (e : A)
  | SetWithNotification (i : Z) (e : A).

  Definition nstep (unique : bool) (data : list A) (o : nop) : nout :=
    match o with
    (* abstractelist.go:78-85, basicenotifyinglist.go:175-181 *)
    | L (Add e) =>
        if unique && contains eqb data e then nret data [] (RBool false)
        else nlift (doAdd data e) (fun '(d, _) =>
               nret d [Notif ADD PNil (PObj e) (zlen data)] (RBool true))
    (* abstractelist.go:87-96, basicenotifyinglist.go:183-186 *)
    | L (AddAll c) =>
        let l := if unique then getNonDuplicates eqb data (elems data c) else elems data c in
        let late d := if unique then l else elems d c in
        if unique && (zlen l =? 0) then nret data [] (RBool false)
        else nlift (ndoInsertAll data (zlen data) l late) (fun '(d, ns) => nret d ns (RBool true))
    (* abstractelist.go:98-108, basicenotifyinglist.go:188-193 *)
    | L (Insert i e) =>
        if (i <? 0) || (i >? zlen data) then Panic
        else if unique && contains eqb data e then nret data [] (RBool false)
        else nlift (doInsert nilv data i e) (fun '(d, _) =>
               nret d [Notif ADD PNil (PObj e) i] (RBool true))
    (* abstractelist.go:110-123, basicenotifyinglist.go:195-213 *)
    | L (InsertAll i c) =>
        if (i <? 0) || (i >? zlen data) then Panic
        else
          let l := if unique then getNonDuplicates eqb data (elems data c) else elems data c in
          let late d := if unique then l else elems d c in
          if unique && (zlen l =? 0) then nret data [] (RBool false)
          else nlift (ndoInsertAll data i l late) (fun '(d, ns) => nret d ns (RBool true))
    (* abstractelist.go:125-132, basicenotifyinglist.go:249-254 *)
    | L (MoveObject i e) =>
        let oldIndex := indexOf eqb data e in
        if oldIndex =? -1 then Panic
        else nlift (doMove data oldIndex i) (fun '(d, x, _) =>
               nret d [Notif MOVE (PInt oldIndex) (PObj x) i] RUnit)
    (* abstractelist.go:135-141 *)
    | L (Move i j) =>
        if (i <? 0) || (i >=? zlen data) || (j <? 0) || (j >? zlen data) then Panic
        else nlift (doMove data i j) (fun '(d, x, _) =>
               nret d [Notif MOVE (PInt i) (PObj x) j] (RElem x))
    (* abstractelist.go:144-150, basicenotifyinglist.go:256-265 *)
    | L (RemoveAt i) =>
        if (i <? 0) || (i >=? zlen data) then Panic
        else nlift (doRemove nilv data i) (fun '(d, x, _) =>
               nret d [Notif REMOVE (PObj x) PNil i] (RElem x))
    (* abstractelist.go:153-161 *)
    | L (Remove e) =>
        let index := indexOf eqb data e in
        if index =? -1 then nret data [] (RBool false)
        else nlift (doRemove nilv data index) (fun '(d, x, _) =>
               nret d [Notif REMOVE (PObj x) PNil index] (RBool true))
    (* abstractelist.go:163-176, basicenotifyinglist.go:267-291 *)
    | L (RemoveRange i j) =>
        if (i <? 0) || (i >=? zlen data) then Panic
        else if (j <? 0) || (j >? zlen data) then Panic
        else if i >? j then Panic
        else nlift (doRemoveRange data i j) (fun '(d, objects, _) =>
               nret d (if zlen objects >? 0
                       then [removeNotification objects (positionsFrom i objects) i] else []) RUnit)
    (* basicenotifyinglist.go:293-347 *)
    | L (RemoveAll c) =>
        let pr := scanRemoved 0 data (elems data c) in
        nlift (removePositions data (rev (map fst pr))) (fun d =>
          match pr with
          | [] => nret d [] (RBool false)
          | (p, _) :: _ => nret d [removeNotification (map snd pr) (map fst pr) p] (RBool true)
          end)
    (* abstractelist.go:191-197 *)
    | L (Get i) =>
        if (i <? 0) || (i >=? zlen data) then Panic
        else nlift (doGet data i) (fun v => nret data [] (RElem v))
    (* abstractelist.go:200-212, basicenotifyinglist.go:215-225 *)
    | L (SetAt i e) =>
        if (i <? 0) || (i >=? zlen data) then Panic
        else
          let currIndex := indexOf eqb data e in
          if unique && ((currIndex >=? 0) && negb (currIndex =? i)) then Panic
          else nlift (doSet data i e) (fun '(d, old, _) =>
                 nret d (if eqb e old then [] else [Notif SET (PObj old) (PObj e) i]) (RElem old))
    (* basicenotifyinglist.go:227-247 *)
    | L Clear =>
        nlift (doClear data) (fun '(d, old, _) =>
          nret d [match old with
                  | [x] => Notif REMOVE (PObj x) PNil 0
                  | _ => Notif REMOVE_MANY (PObjs old) PNil (-1)
                  end] RUnit)
    | L Size => nret data [] (RInt (zlen data))
    | L Empty => nret data [] (RBool (zlen data =? 0))
    | L (Contains e) => nret data [] (RBool (contains eqb data e))
    | L (IndexOf e) => nret data [] (RInt (indexOf eqb data e))
    | L ToArray => nret data [] (RList data)
    (* basicenotifyinglist.go:149-154 *)
    | AddWithNotification e =>
        nlift (doAdd data e) (fun '(d, _) => nret d [Notif ADD PNil (PObj e) (zlen data)] RUnit)
    (* basicenotifyinglist.go:157-166 *)
    | RemoveWithNotification e =>
        let index := indexOf eqb data e in
        if index =? -1 then nret data [] RUnit
        else nlift (doRemove nilv data index) (fun '(d, x, _) =>
               nret d [Notif REMOVE (PObj x) PNil index] RUnit)
    (* basicenotifyinglist.go:169-173 *)
    | SetWithNotification i e =>
        nlift (doSet data i e) (fun '(d, old, _) =>
          nret d [Notif SET (PObj old) (PObj e) i] RUnit)
    end.

  (** A history: per call, the result and the notifications sent during it; final contents or [None]
      when the last call panicked. *)
  Fixpoint nrun (unique : bool) (data : list A) (ops : list nop)
    : list (res A * list notification) * option (list A) :=
    match ops with
    | [] => ([], Some data)
    | o :: ops' =>
        match nstep unique data o with
        | Panic => ([], None)
        | Ret (d, ns) r => let '(rs, fin) := nrun unique d ops' in ((r, ns) :: rs, fin)
        end
    end.

  (** *** Merge: ecore/abstractnotification.go:50-127, for two notifications of the same notifier and
      feature.  [None]: run-time panic; [Some None]: not merged; [Some (Some n)]: the receiver becomes n. *)

  (** lines 96-106: split the positions *)
  Fixpoint mergePositions (positions : list Z) (np : Z) (acc : list Z) : list Z * Z :=
    match positions with
    | p :: rest => if p <=? np then mergePositions rest (np + 1) (acc ++ [p]) else (acc, np)
    | [] => (acc, np)
    end.

  Definition merge (n o : notification) : option (option notification) :=
    match evt n, evt o with
    | (SET | UNSET), (SET | UNSET) =>
        (* lines 53-64 *)
        Some (Some (Notif (match evt o with SET => SET | _ => evt n end)
                          (oldValue n) (newValue o) (position n)))
    | REMOVE, REMOVE =>
        (* lines 65-86 *)
        match oldValue n, oldValue o with
        | PObj a, PObj b =>
            let originalPosition := position n in
            let notificationPosition := position o in
            if originalPosition <=? notificationPosition
            then Some (Some (Notif REMOVE_MANY (PObjs [a; b])
                               (PInts [originalPosition; notificationPosition + 1]) originalPosition))
            else Some (Some (Notif REMOVE_MANY (PObjs [b; a])
                               (PInts [notificationPosition; originalPosition]) notificationPosition))
        | _, _ => None
        end
    | REMOVE_MANY, REMOVE =>
        (* lines 87-124; the type assertion of line 93 panics when newValue is nil *)
        match newValue n, oldValue n, oldValue o with
        | PInts positions, PObjs old, PObj b =>
            let '(kept, np) := mergePositions positions (position o) [] in
            let index := zlen kept in
            (* lines 110-112 *)
            let? tail := zslice (old ++ [nilv]) index (zlen old + 1) in
            let? old1 := zcopy (old ++ [nilv]) (index + 1) tail in
            let? old2 := zset old1 index b in
            (* lines 114-119: for index+1 <= i < len(positions), append positions[i-1] *)
            let rest := firstn (length positions - 1 - length kept) (skipn (length kept) positions) in
            Some (Some (Notif REMOVE_MANY (PObjs old2) (PInts (kept ++ [np] ++ rest)) (position n)))
        | _, _, _ => None
        end
    | _, _ => Some None
    end.

  (** ecore/notificationchain.go:23-34 (Add): merge into the first notification that accepts *)
  Fixpoint chainAdd (chain : list notification) (n : notification) : option (list notification) :=
    match chain with
    | [] => Some [n]
    | m :: rest =>
        let? r := merge m n in
        match r with
        | Some m' => Some (m' :: rest)
        | None => let? rest' := chainAdd rest n in Some (m :: rest')
        end
    end.
End NotifyModel.

Arguments payload : clear implicits.
Arguments notification : clear implicits.
Arguments nop : clear implicits.
