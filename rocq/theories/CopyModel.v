(** Model of ecore/deepcopy.go and of Copy and CopyAll of ecore/ecoreutils.go:149-161, on top of the
    object graph of [GraphModel].

    Simplifications:
    - no object is a proxy: EGetResolve, GetUnResolvedList and copyProxyURI (deepcopy.go:64-70) then
      make no difference, and [resolve] does not matter;
    - newDeepCopy is always called with originalReferences = true (ecoreutils.go:150,157);
    - EFactory.Create (deepcopy.go:58-62) is the stream [alloc] of new objects; it does not panic;
    - EIsSet is that of generated classes: a list is set when it is not empty, a single-valued reference
      when it is not nil; for attributes it is presence in [attrs]. *)
From Verif Require Import Base ListModel GraphModel.

(** A value of an attribute: a primitive, or the address of an EList *)
Inductive cell := CPrim (p : nat) | CList (l : nat).

(** what deepcopy.go asks of features and classes besides [GraphModel.metamodel]: IsChangeable,
    IsDerived, being an EAttribute, GetEReferences (the references of the class itself) *)
Record copyInfo := CI {
  changeable : feature -> bool;
  derived : feature -> bool;
  attribute : feature -> bool;
  ownReferences : nat -> list feature
}.

(** how ESet stores a many-valued value: generated classes (for example eclass_impl.go:437-438) do
    list.Clear() and list.AddAll(value); dynamic objects (abstracteobject.go:443-499) store the value *)
Inductive kind := Generated | Dynamic.

(** the objects, the attributes, the lists of attribute values, and dC.objects (latest entry first) *)
Record cstate := CS {
  graph : state;
  attrs : obj -> feature -> option cell;
  lists : nat -> list nat;
  nextObj : nat;
  nextList : nat;
  copies : list (obj * obj)
}.

Inductive cres (A : Type) := Done (a : A) | Panics | Unfinished.
Arguments Done {A}. Arguments Panics {A}. Arguments Unfinished {A}.
Definition cbind {A B} (r : cres A) (f : A -> cres B) : cres B :=
  match r with Done a => f a | Panics => Panics | Unfinished => Unfinished end.
Notation "'let!' x := e 'in' f" := (cbind e (fun x => f)) (at level 200, x pattern, e at level 100, f at level 200).
Definition orPanic {A} (o : option A) : cres A := match o with Some a => Done a | None => Panics end.

Definition withGraph (s : cstate) (g : state) : cstate := CS g (attrs s) (lists s) (nextObj s) (nextList s) (copies s).
Definition setAttr (s : cstate) (o : obj) (f : feature) (v : cell) : cstate :=
  CS (graph s) (upd (attrs s) o (upd (attrs s o) f (Some v))) (lists s) (nextObj s) (nextList s) (copies s).

(** dC.objects[x] *)
Fixpoint copyOf (l : list (obj * obj)) (x : obj) : option obj :=
  match l with
  | [] => None
  | (k, v) :: l' => if Nat.eqb k x then Some v else copyOf l' x
  end.
(** the entries of dC.objects, each key once *)
Fixpoint entries (seen : list obj) (l : list (obj * obj)) : list (obj * obj) :=
  match l with
  | [] => []
  | (k, v) :: l' => if existsb (Nat.eqb k) seen then entries seen l' else (k, v) :: entries (k :: seen) l'
  end.

Section Copy.
  Context (M : metamodel) (X : copyInfo) (K : kind) (alloc : nat -> nat -> obj).

  Definition copied (f : feature) : bool := changeable X f && negb (derived X f).

  (** deepcopy.go:58-62 (createCopy) and line 30: dC.objects[eObject] = copyEObject *)
  Definition newCopy (s : cstate) (o : obj) : cstate * obj :=
    let c := alloc (nextObj s) (classOf M o) in
    (CS (graph s) (attrs s) (lists s) (Datatypes.S (nextObj s)) (nextList s) ((o, c) :: copies s), c).

  (** deepcopy.go:72-76 (copyAttribute) *)
  Definition copyAttribute (s : cstate) (f : feature) (o c : obj) : cstate :=
    match attrs s o f with
    | None => s
    | Some v =>
        match K, v with
        | Generated, CList l =>
            (* the list of the copy, cleared and filled with the elements *)
            let n := nextList s in
            setAttr (CS (graph s) (attrs s) (upd (lists s) n (lists s l)) (nextObj s) (Datatypes.S n) (copies s)) c f (CList n)
        | _, _ => setAttr s c f v
        end
    end.

  Section Features.
    Context (copy : cstate -> obj -> cres (cstate * obj)).

    (** deepcopy.go:49-56 (copyAll) *)
    Fixpoint copyAllWith (s : cstate) (l : list obj) : cres (cstate * list obj) :=
      match l with
      | [] => Done (s, [])
      | x :: l' =>
          let! (s1, c) := copy s x in
          let! (s2, cs) := copyAllWith s1 l' in
          Done (s2, c :: cs)
      end.

    (** ESet of a many-valued containment reference with a list *)
    Definition setMany (g : state) (c : obj) (f : feature) (l : list obj) : option state :=
      match K with
      | Generated =>
          let? g1 := gstep M g (OList c f Clear) in
          gstep M g1 (OList c f (AddAll (Ext l)))
      | Dynamic => let? f' := accessed M c f in Some (setSlot g c f' l)
      end.

    (** deepcopy.go:78-89 (copyContainment) *)
    Definition copyContainment (s : cstate) (f : feature) (o c : obj) : cres cstate :=
      let! value := orPanic (eGet M (graph s) o f) in
      match value with
      | [] => Done s
      | x :: _ =>
          if f_many M f then
            let! (s1, l) := copyAllWith s value in
            let! g := orPanic (setMany (graph s1) c f l) in
            Done (withGraph s1 g)
          else
            let! (s1, x') := copy s x in
            let! g := orPanic (gstep M (graph s1) (OSet c f (Some x'))) in
            Done (withGraph s1 g)
      end.

    (** deepcopy.go:32-41, one feature *)
    Definition copyFeature (s : cstate) (f : feature) (o c : obj) : cres cstate :=
      if copied f then
        if attribute X f then Done (copyAttribute s f o c)
        else if f_cont M f then copyContainment s f o c
        else Done s
      else Done s.
    Fixpoint copyFeatures (s : cstate) (fs : list feature) (o c : obj) : cres cstate :=
      match fs with
      | [] => Done s
      | f :: fs' => let! s1 := copyFeature s f o c in copyFeatures s1 fs' o c
      end.
  End Features.

  (** deepcopy.go:26-47 (copy) *)
  Fixpoint copy (fuel : nat) (s : cstate) (o : obj) : cres (cstate * obj) :=
    match fuel with
    | O => Unfinished
    | Datatypes.S n =>
        let (s1, c) := newCopy s o in
        let! s2 := copyFeatures (copy n) s1 (features M o) o c in
        Done (s2, c)
    end.

  (** deepcopy.go:117-141: the loop over the elements of a many-valued reference *)
  Fixpoint copyElements (phi : obj -> option obj) (g : state) (f : feature) (c : obj) (index : Z) (source : list obj) : option state :=
    match source with
    | [] => Some g
    | x :: source' =>
        match phi x with
        | Some x' =>
            let? target := eGet M g c f in
            let? g1 :=
              if isBidirectional M f then
                let position := indexOf Nat.eqb target x' in
                if position =? -1 then gstep M g (OList c f (Insert index x'))
                else if negb (index =? position) then gstep M g (OList c f (MoveObject index x'))
                else Some g
              else gstep M g (OList c f (Insert index x')) in
            copyElements phi g1 f c (index + 1) source'
        | None =>
            if isBidirectional M f then copyElements phi g f c index source'
            else let? g1 := gstep M g (OList c f (Insert index x)) in copyElements phi g1 f c (index + 1) source'
        end
    end.

  (** deepcopy.go:102-158 (copyReference).  A value that is not set is left alone, so the branches for
      empty lists and nil objects are not reached. *)
  Definition copyReference (phi : obj -> option obj) (g : state) (f : feature) (o c : obj) : option state :=
    let? value := eGet M g o f in
    match value with
    | [] => Some g
    | x :: _ =>
        if f_many M f then copyElements phi g f c 0 value
        else match phi x with
             | Some x' => gstep M g (OSet c f (Some x'))
             | None => if isBidirectional M f then Some g else gstep M g (OSet c f (Some x))
             end
    end.

  (** deepcopy.go:93-98: the references of one object *)
  Fixpoint copyObjectReferences (phi : obj -> option obj) (g : state) (fs : list feature) (o c : obj) : option state :=
    match fs with
    | [] => Some g
    | f :: fs' =>
        let? g1 := if copied f && negb (f_cont M f) && negb (isContainer M f) then copyReference phi g f o c else Some g in
        copyObjectReferences phi g1 fs' o c
    end.
  (** deepcopy.go:91-100 (copyReferences); [order] is the order in which Go visits the map *)
  Fixpoint copyReferences (phi : obj -> option obj) (g : state) (order : list (obj * obj)) : option state :=
    match order with
    | [] => Some g
    | (o, c) :: order' =>
        let? g1 := copyObjectReferences phi g (ownReferences X (classOf M o)) o c in
        copyReferences phi g1 order'
    end.

  (** the start of a Copy: dC.objects is empty *)
  Definition start (s : cstate) : cstate := CS (graph s) (attrs s) (lists s) (nextObj s) (nextList s) [].

  (** ecoreutils.go:156-161 (CopyAll); [visit] orders the entries of the map *)
  Definition CopyAll (visit : list (obj * obj) -> list (obj * obj)) (fuel : nat) (s : cstate) (l : list obj) : cres (cstate * list obj) :=
    let! (s1, cs) := copyAllWith (copy fuel) (start s) l in
    let! g := orPanic (copyReferences (copyOf (copies s1)) (graph s1) (visit (entries [] (copies s1)))) in
    Done (withGraph s1 g, cs).

  (** ecoreutils.go:149-154 (Copy) *)
  Definition Copy (visit : list (obj * obj) -> list (obj * obj)) (fuel : nat) (s : cstate) (o : obj) : cres (cstate * obj) :=
    let! (s1, c) := copy fuel (start s) o in
    let! g := orPanic (copyReferences (copyOf (copies s1)) (graph s1) (visit (entries [] (copies s1)))) in
    Done (withGraph s1 g, c).
End Copy.
