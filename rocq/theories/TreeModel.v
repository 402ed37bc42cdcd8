(** Model of ecore/etreeiterator.go, ecore/econtentslist.go, ecore/elistiterator.go and ecore/eallcontents.go.

    Objects, classes and references are numbered.  The object graph does not change while an iterator is in
    use, so an iterator over a list is the list of the elements it has still to deliver. *)
From Verif Require Import Base.

(** *** The contents list of an object, econtentslist.go *)
Section Contents.
  (** features of the object, in the order of the feature list; [isMany], [isSet], and the value: the elements of the
      list value, or the single value if any *)
  Context (isMany isSet : nat -> bool) (valueList : nat -> list nat) (valueSingle : nat -> option nat).
  (** proxy resolution of one element (EGetResolve / resolving list); the identity for the unresolved view *)
  Context (resolve : nat -> nat).

  (** econtentslist.go:12-18; [features]: features from featureCursor on *)
  Inductive prep := Unprepared | NoMore | Prepared.
  Record citer := mkC { cnext : option nat; values : option (list nat); prepared : prep; features : list nat }.
  Definition cIterator (fs : list nat) : citer := mkC None None Unprepared fs.

  (** econtentslist.go:38-71: find the next feature with a value *)
  Fixpoint findFeature (fs : list nat) : bool * citer :=
    match fs with
    | [] => (false, mkC None None NoMore [])
    | f :: fs' =>
        if isSet f then
          if isMany f then
            match map resolve (valueList f) with
            | x :: rest => (true, mkC (Some x) (Some rest) Prepared fs')
            | [] => findFeature fs'
            end
          else match valueSingle f with
               | Some x => (true, mkC (Some (resolve x)) None Prepared fs')
               | None => findFeature fs'
               end
        else findFeature fs'
    end.

  (** econtentslist.go:28-78 *)
  Definition cHasNext (it : citer) : bool * citer :=
    match prepared it with
    | Prepared => (true, it)
    | NoMore => (false, it)
    | Unprepared =>
        match values it with
        | Some (x :: rest) => (true, mkC (Some x) (Some rest) Prepared (features it))
        | _ => findFeature (features it)
        end
    end.

  (** econtentslist.go:20-26; [None]: panic *)
  Definition cNext (it : citer) : option (option nat * citer) :=
    match prepared it with
    | Prepared => Some (cnext it, mkC (cnext it) (values it) Unprepared (features it))
    | _ => let '(b, it') := cHasNext it in
           if b then Some (cnext it', mkC (cnext it') (values it') Unprepared (features it')) else None
    end.

  (** econtentslist.go:98-113 *)
  Definition cSize (fs : list nat) : Z :=
    fold_left (fun size f =>
      if isSet f then
        if isMany f then size + zlen (valueList f)
        else match valueSingle f with Some _ => size + 1 | None => size end
      else size) fs 0.

  (** econtentslist.go:116-132 *)
  Fixpoint cEmpty (fs : list nat) : bool :=
    match fs with
    | [] => true
    | f :: fs' =>
        if isSet f then
          if isMany f then (if zlen (valueList f) =? 0 then cEmpty fs' else false)
          else match valueSingle f with Some _ => false | None => cEmpty fs' end
        else cEmpty fs'
    end.

  (** econtentslist.go:89-95 *)
  Fixpoint cGetFrom (it : citer) (n : nat) : option nat :=
    match cNext it with
    | Some (x, it') => match n with O => x | S n' => cGetFrom it' n' end
    | None => None
    end.
  Definition cGet (fs : list nat) (i : nat) : option nat := cGetFrom (cIterator fs) i.

  (** econtentslist.go:173-179, and the loops of Contains, IndexOf and All; fuel: one unit per element *)
  Fixpoint cLoop (fuel : nat) (it : citer) : option (list nat) :=
    let '(b, it1) := cHasNext it in
    if b then
      match fuel with
      | O => None
      | S fuel' => match cNext it1 with
                   | Some (Some x, it2) => let? l := cLoop fuel' it2 in Some (x :: l)
                   | _ => None
                   end
      end
    else Some [].
End Contents.

(** *** The tree iterator, etreeiterator.go *)
Section Tree.
  Context (children : nat -> list nat).

  (** etreeiterator.go:12-17; [data]: [None] is nil; the top of the stack comes first *)
  Record titer := mkT { object : nat; data : option (list (list nat)); root : bool }.
  (** etreeiterator.go:19-21, eallcontents.go:5-9 *)
  Definition newTreeIterator (o : nat) (r : bool) : titer := mkT o None r.

  Definition lHasNext (l : list nat) : bool := match l with [] => false | _ => true end.

  (** etreeiterator.go:23-39 *)
  Definition tHasNext (it : titer) : bool * titer :=
    match data it with
    | None =>
        if root it then (true, it)
        else (lHasNext (children (object it)), mkT (object it) (Some [children (object it)]) (root it))
    | Some [] => (false, it)
    | Some (top :: _) => (lHasNext top, it)
    end.

  (** etreeiterator.go:61-74: pop exhausted iterators *)
  Fixpoint pop (stk : list (list nat)) : list (list nat) :=
    match stk with
    | [] => []
    | top :: stk' => if lHasNext top then stk else pop stk'
    end.

  (** etreeiterator.go:53-76 on a non-nil stack; [None]: panic *)
  Definition advance (it : titer) (stk : list (list nat)) : option (nat * titer) :=
    match stk with
    | (x :: rest) :: stk' =>
        let sub := children x in
        let stk2 := if lHasNext sub then sub :: rest :: stk' else pop (rest :: stk') in
        Some (x, mkT (object it) (Some stk2) (root it))
    | _ => None
    end.

  (** etreeiterator.go:41-77 *)
  Definition tNext (it : titer) : option (nat * titer) :=
    match data it with
    | None =>
        let stk := [children (object it)] in
        if root it then Some (object it, mkT (object it) (Some stk) (root it))
        else advance it stk
    | Some stk => advance it stk
    end.

  (** a client: any sequence of HasNext and Next calls, with the answers *)
  Inductive tcall := THas | TNext.
  Inductive tans := ABool (b : bool) | AObj (o : nat).
  Fixpoint trun (it : titer) (calls : list tcall) : option (list tans) :=
    match calls with
    | [] => Some []
    | THas :: cs => let '(b, it') := tHasNext it in let? l := trun it' cs in Some (ABool b :: l)
    | TNext :: cs => let? (x, it') := tNext it in let? l := trun it' cs in Some (AObj x :: l)
    end.
End Tree.

(** *** The class-filtered iterator, eallcontents.go:11-253 *)
Section ClassFilter.
  (** own containment references of a class (GetEContainmentFeatures, eclass_ext.go:241-259) and reference types *)
  Context (containments : nat -> list nat) (refType : nat -> nat).

  (** eallcontents.go:11-15 *)
  Record transition := mkTr { reference : nat; source : nat; target : nat }.
  Definition tr_eqb (a b : transition) : bool :=
    Nat.eqb (reference a) (reference b) && Nat.eqb (source a) (source b) && Nat.eqb (target a) (target b).

  (** eallcontents.go:19-26 *)
  Definition ts_add (ts : list transition) (t : transition) : list transition :=
    if existsb (fun t' => tr_eqb t' t) ts then ts else ts ++ [t].
  (** eallcontents.go:28-36: the last transition takes the place of the removed one *)
  Fixpoint ts_remove (ts : list transition) (t : transition) : list transition :=
    match ts with
    | [] => []
    | t' :: ts' => if tr_eqb t' t then
                     match rev ts' with [] => [] | z :: zs => z :: rev zs end
                   else t' :: ts_remove ts' t
    end.

  (** eallcontents.go:38-48: [None] for a class absent from the map *)
  Record table := mkTab { transitionsMap : nat -> option (list transition); keys : list nat; endSet : nat -> bool }.
  Definition newTable : table := mkTab (fun _ => None) [] (fun _ => false).
  Definition getTransitions (T : table) (c : nat) : list transition :=
    match transitionsMap T c with Some l => l | None => [] end.
  Definition contains (T : table) (c : nat) : bool :=
    match transitionsMap T c with Some _ => true | None => false end.
  (** eallcontents.go:62-64 *)
  Definition addTransition (T : table) (t : transition) : table :=
    mkTab (fun c => if Nat.eqb c (source t) then Some (ts_add (getTransitions T (source t)) t) else transitionsMap T c)
          (if contains T (source t) then keys T else keys T ++ [source t]) (endSet T).
  (** eallcontents.go:66-70 *)
  Definition removeTransition (T : table) (t : transition) : table :=
    if contains T (source t)
    then mkTab (fun c => if Nat.eqb c (source t) then Some (ts_remove (getTransitions T (source t)) t) else transitionsMap T c)
               (keys T) (endSet T)
    else T.
  (** eallcontents.go:84-91 *)
  Definition setIsEnd (T : table) (c : nat) : table :=
    mkTab (transitionsMap T) (keys T) (fun c' => Nat.eqb c' c || endSet T c').
  Definition isEnd (T : table) (c : nat) : bool := endSet T c.
  (** eallcontents.go:50-60; the Go map is iterated in some order of its keys, here the order of insertion; transitions of
      different sources do not interfere *)
  Definition union (T other : table) : table :=
    let T1 := fold_left (fun T c => fold_left addTransition (getTransitions other c) T) (keys other) T in
    mkTab (transitionsMap T1) (keys T1) (fun c => endSet other c || endSet T1 c).

  (** eallcontents.go:101-137; [None]: out of fuel *)
  Fixpoint computeForState (fuel : nat) (c endClass : nat) (st : table * table) : option (table * table) :=
    match fuel with
    | O => None
    | S fuel' =>
        fold_left (fun st ref =>
          let? (current, result) := st in
          let targetClass := refType ref in
          let t := mkTr ref c targetClass in
          let result1 := if Nat.eqb targetClass endClass
                         then addTransition (union (setIsEnd result targetClass) current) t else result in
          if contains current targetClass then
            Some (current, if contains result1 targetClass then addTransition (union result1 current) t else result1)
          else
            let? (current2, result2) := computeForState fuel' targetClass endClass (addTransition current t, result1) in
            Some (removeTransition current2 t, result2)) (containments c) (Some st)
    end.
  (** eallcontents.go:93-99 *)
  Definition NewEClassTransitionsTable (fuel : nat) (startClass endClass : nat) : option table :=
    if Nat.eqb startClass endClass then Some newTable
    else let? (_, result) := computeForState fuel startClass endClass (newTable, newTable) in Some result.

  (** values of containment references in the objects; EIsSet of an empty list is false *)
  Context (value : nat -> nat -> list nat).

  (** eallcontents.go:139-145: [iter]: [None] is nil; [cur]: current transition; [rem]: [None] is nil *)
  Record frame := mkF { fObj : nat; fClass : nat; iter : option (list nat); cur : option transition; rem : option (list transition) }.

  (** eallcontents.go:202-253; the top of the stack comes first.  [fuel] bounds the rounds of the loop; [None]: out of fuel *)
  Fixpoint findNext (fuel : nat) (T : table) (stk : list frame) : option (option nat * list frame) :=
    match stk with
    | [] => Some (None, [])
    | d :: stk' =>
        match fuel with
        | O => None
        | S fuel' =>
            let d' :=
              if match iter d with Some (_ :: _) => true | _ => false end then d
              else
                let rem := match rem d with Some r => r | None => getTransitions T (fClass d) end in
                match rev rem with
                | t :: r => mkF (fObj d) (fClass d)
                                (if lHasNext (value (fObj d) (reference t)) then Some (value (fObj d) (reference t)) else iter d)
                                (Some t) (Some (rev r))
                | [] => mkF (fObj d) (fClass d) (iter d) None (Some [])
                end in
            match iter d', cur d' with
            | Some (x :: rest), Some t =>
                let stk2 := mkF x (target t) None None None :: mkF (fObj d') (fClass d') (Some rest) (cur d') (rem d') :: stk' in
                if isEnd T (target t) then Some (Some x, stk2) else findNext fuel' T stk2
            | Some (_ :: _), None => None    (* nil dereference: does not occur, see the proofs *)
            | _, _ => findNext fuel' T stk'
            end
        end
    end.

  (** the values delivered by the iterator, eallcontents.go:181-200: Next until HasNext is false *)
  Fixpoint deliver (fuel : nat) (T : table) (stk : list frame) : option (list nat) :=
    match fuel with
    | O => None
    | S fuel' =>
        let? (x, stk') := findNext fuel T stk in
        match x with
        | None => Some []
        | Some o => let? l := deliver fuel' T stk' in Some (o :: l)
        end
    end.
  (** eallcontents.go:177-188, ecoreutils.go:235-241 *)
  Definition EAllContentsWithClass (fuel : nat) (objClass : nat -> nat) (o endClass : nat) : option (list nat) :=
    let? T := NewEClassTransitionsTable fuel (objClass o) endClass in
    deliver fuel T [mkF o (objClass o) None None None].
End ClassFilter.
