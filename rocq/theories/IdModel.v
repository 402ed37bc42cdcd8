(** Model of ecore/uniqueidmanager.go and ecore/eobjectidmanager_impl.go.

    Objects are numbered.  The address of an object ([getPointer], reflect.ValueOf(o).Pointer()) is a
    parameter: two live objects have different addresses, but the manager keeps addresses of objects it
    no longer references, and the allocator may reuse those.  Every method body runs under the manager's
    mutex, so a history of calls is a sequence. *)
From Verif Require Import Base.

Section UniqueIDManager.
  (** [I]: id type; [A]: Go values passed as id; [G]: state captured by the newID/setID closures; [P]: addresses *)
  Context {I A G P : Type} (ieqb : I -> I -> bool) (peqb : P -> P -> bool).
  (** the four closures of NewUniqueIDManager, uniqueidmanager.go:24-34; [getID] is [None] on error *)
  Context (newID : G -> I * G) (isValidID : I -> bool) (getID : A -> option I) (setID : I -> G -> G).
  (** uniqueidmanager.go:58-60 *)
  Context (getPointer : nat -> P).

  (** uniqueidmanager.go:13-22 *)
  Record mgr := mkMgr {
    detachedToID : P -> option I;
    objectToID : nat -> option I;
    idToObject : I -> option nat;
    gen : G }.

  Definition put {K V} (eqb : K -> K -> bool) (m : K -> option V) (k : K) (v : option V) : K -> option V :=
    fun k' => if eqb k' k then v else m k'.

  Definition New (g : G) : mgr := mkMgr (fun _ => None) (fun _ => None) (fun _ => None) g.

  (** uniqueidmanager.go:36-42: the closures keep their state *)
  Definition Clear (m : mgr) : mgr := New (gen m).

  (** uniqueidmanager.go:44-56 *)
  Definition setObjectID (m : mgr) (o : nat) (i : I) : mgr :=
    let ids := match objectToID m o with
               | Some old => put ieqb (idToObject m) old None
               | None => idToObject m
               end in
    if isValidID i
    then mkMgr (detachedToID m) (put Nat.eqb (objectToID m) o (Some i)) (put ieqb ids i (Some o)) (setID i (gen m))
    else mkMgr (detachedToID m) (put Nat.eqb (objectToID m) o None) ids (gen m).

  (** uniqueidmanager.go:62-75 *)
  Definition Register (m : mgr) (o : nat) : mgr :=
    match objectToID m o with
    | Some _ => m
    | None =>
        match detachedToID m (getPointer o) with
        | Some i =>
            setObjectID (mkMgr (put peqb (detachedToID m) (getPointer o) None) (objectToID m) (idToObject m) (gen m)) o i
        | None =>
            let '(i, g) := newID (gen m) in
            setObjectID (mkMgr (detachedToID m) (objectToID m) (idToObject m) g) o i
        end
    end.

  (** uniqueidmanager.go:77-86 *)
  Definition UnRegister (m : mgr) (o : nat) : mgr :=
    match objectToID m o with
    | Some i => mkMgr (put peqb (detachedToID m) (getPointer o) (Some i)) (put Nat.eqb (objectToID m) o None)
                      (put ieqb (idToObject m) i None) (gen m)
    | None => m
    end.

  (** uniqueidmanager.go:88-96: on an unusable id the error is returned and nothing changes *)
  Definition SetID (m : mgr) (o : nat) (a : A) : mgr :=
    match getID a with Some i => setObjectID m o i | None => m end.

  (** uniqueidmanager.go:98-105 *)
  Definition GetID (m : mgr) (o : nat) : option I := objectToID m o.
  (** uniqueidmanager.go:107-114 *)
  Definition GetEObject (m : mgr) (a : A) : option nat :=
    match getID a with Some i => idToObject m i | None => None end.
  (** uniqueidmanager.go:116-124 *)
  Definition GetDetachedID (m : mgr) (o : nat) : option I := detachedToID m (getPointer o).

  Inductive idop := ORegister (o : nat) | OUnRegister (o : nat) | OSetID (o : nat) (a : A) | OClear.
  Definition istep (m : mgr) (op : idop) : mgr :=
    match op with
    | ORegister o => Register m o
    | OUnRegister o => UnRegister m o
    | OSetID o a => SetID m o a
    | OClear => Clear m
    end.
  Definition irun (m : mgr) (h : list idop) : mgr := fold_left istep h m.
End UniqueIDManager.
Arguments idop : clear implicits.
Arguments mgr : clear implicits.

(** ** The incremental manager, uniqueidmanager.go:182-228 *)

(** two's complement 64-bit reading of an integer *)
Definition wrap64 (z : Z) : Z := (z + 2 ^ 63) mod 2 ^ 64 - 2 ^ 63.

(** Go values usable as ids: nil, a string (its bytes), an integer of one of the ten integer types
    (its mathematical value), anything else *)
Inductive goval := VNil | VString (s : list nat) | VInt (z : Z) | VOther.

(** strconv.ParseInt(s, 10, 64), for the accumulated value *)
Fixpoint digits (s : list nat) (acc : Z) : option Z :=
  match s with
  | [] => Some acc
  | c :: s' => if ((48 <=? c) && (c <=? 57))%nat then digits s' (acc * 10 + (Z.of_nat c - 48)) else None
  end.
(** strconv.ParseInt(s, 10, 64): optional sign, at least one digit, value within int64 *)
Definition ParseInt (s : list nat) : option Z :=
  let '(neg, ds) := match s with
                    | 43%nat :: s' => (false, s')
                    | 45%nat :: s' => (true, s')
                    | _ => (false, s)
                    end in
  match ds with
  | [] => None
  | _ => match digits ds 0 with
         | Some z => let v := if neg : bool then - z else z in
                     if (- 2 ^ 63 <=? v) && (v <? 2 ^ 63) then Some v else None
         | None => None
         end
  end.

(** uniqueidmanager.go:187-191 *)
Definition inc_newID (current : Z) : Z * Z := (current, wrap64 (current + 1)).
(** uniqueidmanager.go:192-194 *)
Definition inc_isValidID (i : Z) : bool := 0 <=? i.
(** uniqueidmanager.go:195-223 *)
Definition inc_getID (a : goval) : option Z :=
  match a with
  | VNil => Some (-1)
  | VString s => ParseInt s
  | VInt z => Some (wrap64 z)
  | VOther => None
  end.
(** uniqueidmanager.go:224-226 *)
Definition inc_setID (i : Z) (current : Z) : Z := Z.max (wrap64 (i + 1)) current.

Definition imgr (P : Type) := mgr Z Z P.
Definition inc_New {P} : imgr P := New 0.
Definition inc_run {P} (peqb : P -> P -> bool) (getPointer : nat -> P) : imgr P -> list (idop goval) -> imgr P :=
  irun Z.eqb peqb inc_newID inc_isValidID inc_getID inc_setID getPointer.

(** ** The UUID and ULID managers, uniqueidmanager.go:126-180: every id is valid, setID does nothing, and the
    generator is an external source, here a stream of ids.  Parsing of textual ids is a parameter. *)
Definition rnd_newID {I} (g : nat -> I) : I * (nat -> I) := (g O, fun n => g (S n)).
Definition rnd_run {I A P} (ieqb : I -> I -> bool) (peqb : P -> P -> bool) (parse : A -> option I)
  (getPointer : nat -> P) : mgr I (nat -> I) P -> list (idop A) -> mgr I (nat -> I) P :=
  irun ieqb peqb rnd_newID (fun _ => true) parse (fun _ g => g) getPointer.

(** ** ecore/eobjectidmanager_impl.go: ids are the values of the objects' ID attribute *)
Section EObjectIDManagerImpl.
  (** [hasID o]: the class of [o] has an ID attribute.  Its type converts values to strings and back
      without change (GetEObjectID and SetEObjectID, ecoreutils.go:16-36, with a string attribute). *)
  Context {S : Type} (seqb : S -> S -> bool) (hasID : nat -> bool).

  (** eobjectidmanager_impl.go:16-19; [attr]: value of the ID attribute in the objects, [None] when unset or "" *)
  Record omgr := mkO { attr : nat -> option S; oObjectToID : nat -> option S; oIdToObject : S -> option nat }.
  Definition oNew (a : nat -> option S) : omgr := mkO a (fun _ => None) (fun _ => None).

  (** eobjectidmanager_impl.go:28-31 *)
  Definition oClear (m : omgr) : omgr := oNew (attr m).

  (** ecoreutils.go:16-24 *)
  Definition GetEObjectID (m : omgr) (o : nat) : option S := if hasID o then attr m o else None.

  (** eobjectidmanager_impl.go:33-39 *)
  Definition oRegister (m : omgr) (o : nat) : omgr :=
    match GetEObjectID m o with
    | Some i => mkO (attr m) (put Nat.eqb (oObjectToID m) o (Some i)) (put seqb (oIdToObject m) i (Some o))
    | None => m
    end.

  (** eobjectidmanager_impl.go:41-65 for a string or nil ([None] is nil and ""); [None]: SetEObjectID panics,
      ecoreutils.go:26-36.  Other values are refused without effect and are left out. *)
  Definition oSetID (m : omgr) (o : nat) (new : option S) : option omgr :=
    if hasID o then
      let ids := match oObjectToID m o with
                 | Some old => put seqb (oIdToObject m) old None
                 | None => oIdToObject m
                 end in
      let ids' := match new with Some i => put seqb ids i (Some o) | None => ids end in
      Some (mkO (put Nat.eqb (attr m) o new) (put Nat.eqb (oObjectToID m) o new) ids')
    else None.

  (** eobjectidmanager_impl.go:67-72 *)
  Definition oUnRegister (m : omgr) (o : nat) : omgr :=
    match oObjectToID m o with
    | Some i => mkO (attr m) (put Nat.eqb (oObjectToID m) o None) (put seqb (oIdToObject m) i None)
    | None => m
    end.

  (** eobjectidmanager_impl.go:74-92 *)
  Definition oGetID (m : omgr) (o : nat) : option S := oObjectToID m o.
  Definition oGetEObject (m : omgr) (i : S) : option nat := oIdToObject m i.
  Definition oGetDetachedID (m : omgr) (o : nat) : option S := GetEObjectID m o.

  (** [OAttr]: the program assigns the ID attribute without the manager *)
  Inductive oop := OORegister (o : nat) | OOUnRegister (o : nat) | OOSetID (o : nat) (i : option S)
                 | OOClear | OAttr (o : nat) (i : option S).
  Definition ostep (m : omgr) (op : oop) : option omgr :=
    match op with
    | OORegister o => Some (oRegister m o)
    | OOUnRegister o => Some (oUnRegister m o)
    | OOSetID o i => oSetID m o i
    | OOClear => Some (oClear m)
    | OAttr o i => Some (mkO (put Nat.eqb (attr m) o i) (oObjectToID m) (oIdToObject m))
    end.
  Fixpoint orun (m : omgr) (h : list oop) : option omgr :=
    match h with [] => Some m | op :: h' => let? m' := ostep m op in orun m' h' end.
End EObjectIDManagerImpl.
Arguments oop : clear implicits.
