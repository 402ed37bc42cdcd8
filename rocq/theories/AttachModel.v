(** Model of what a resource tells its id manager and its listeners while the object graph is edited:
    Attached and Detached (ecore/eresource_impl.go:353-401) and the calls to them in
    ecore/abstracteobject.go and in the contents list of ecore/eresource_impl.go:79-97.

    The calls of [GraphModel] are repeated here with the announcements they make.  Both versions
    compute the same states, see [AttachErase.gstepA_erase].

    Simplifications:
    - those of [GraphModel];
    - every resource has an id manager or a listener from the start (IsAttachedDetachedRequired,
      lines 353-355); without one no call is made;
    - managers and listeners do not edit the graph; Register and UnRegister are taken to record and to
      forget the object ([IdModel] describes the managers);
    - [fuel] bounds the recursions of EResource and of the tree iterator; [None] when it is too small
      or when the call panics. *)
From Verif Require Import Base ListModel NotifyModel GraphModel.

(** one call to DoAttached or DoDetached (eresource_impl.go:368-378, 391-401), or the Clear of DoUnload *)
Inductive announce :=
| Att (r : resource) (x : obj)
| Det (r : resource) (x : obj)
| Clr (r : resource).

(** a call that edits the graph and makes announcements *)
Definition editA : Type := option (state * list announce).

Definition bindA (m : editA) (k : state -> editA) : editA :=
  match m with
  | None => None
  | Some (s, es) => match k s with None => None | Some (s', es') => Some (s', es ++ es') end
  end.
Definition justA (s : state) : editA := Some (s, []).
Definition liftA (s : option state) : editA :=
  match s with Some s' => Some (s', []) | None => None end.
Notation "'let#' x ':=' e 'in' f" := (bindA e (fun x => f)) (at level 200, x name, e at level 100, f at level 200).

Fixpoint mapO {A B} (g : A -> option B) (l : list A) : option (list B) :=
  match l with
  | [] => Some []
  | x :: l' => let? y := g x in let? r := mapO g l' in Some (y :: r)
  end.

Definition res_eqb (a b : option resource) : bool :=
  match a, b with
  | Some x, Some y => Nat.eqb x y
  | None, None => true
  | _, _ => false
  end.

Section Attach.
  Context (M : metamodel) (fuel : nat).

  (** EContents (abstracteobject.go, econtentslist.go): the values of the containment references, in the
      order of the features *)
  Definition children (s : state) (x : obj) : list obj :=
    flat_map (fun f => if f_cont M f then slot s x f else []) (features M x).

  (** eresource_impl.go:224-235 (getAllContentsResolve, resolve = false) after the object itself: the
      order of the tree iterator *)
  Fixpoint walk (n : nat) (s : state) (x : obj) : option (list obj) :=
    match n with
    | O => None
    | S n' => let? ls := mapO (walk n' s) (children s x) in Some (x :: concat ls)
    end.

  (** eresource_impl.go:357-366 (Attached), 380-389 (Detached) *)
  Definition attached (s : state) (r : resource) (x : obj) : editA :=
    let? l := walk fuel s x in Some (s, map (Att r) l).
  Definition detached (s : state) (r : resource) (x : obj) : editA :=
    let? l := walk fuel s x in Some (s, map (Det r) l).

  (** [if r != nil && r != other { r.Attached(x) }] *)
  Definition unless_same (r other : option resource) (s : state) (k : resource -> editA) : editA :=
    match r with
    | Some q => if res_eqb r other then justA s else k q
    | None => justA s
    end.

  (** EResource of the old container, when there is one *)
  Definition resource_of (s : state) (c : option obj) : option (option resource) :=
    match c with Some c' => eResource fuel s c' | None => Some None end.

  (** abstracteobject.go:782-828 (EBasicSetContainer) *)
  Definition basicSetContainerA (s : state) (x : obj) (c : option obj) (id : Z) : editA :=
    let? (s1, oldResource, newResource) :=
      match internalResource s x with
      | Some r =>
          match c with
          | Some c' =>
              let? f := eContainmentFeature M x c' id in
              if negb (f_resolve M f) then
                let? s0 := contentsRemove s r x in
                let s1 := setResource s0 x None in
                let? q := eResource fuel s1 c' in
                Some (s1, Some r, q)
              else Some (s, None, None)
          | None => Some (s, None, None)
          end
      | None =>
          let? p := resource_of s (container s x) in
          let? q := resource_of s c in
          Some (s, p, q)
      end in
    let# s2 := unless_same oldResource newResource s1 (fun q => detached s1 q x) in
    let s3 := setContainer s2 x c id in
    unless_same newResource oldResource s3 (fun q => attached s3 q x).

  (** abstracteobject.go:738-779 (EBasicInverseRemove, eDynamicPropertiesInverseRemove) *)
  Definition basicInverseRemoveA (s : state) (x other : obj) (id : Z) : editA :=
    match feature_at M x id with
    | None => None
    | Some f =>
        if f_many M f then
          liftA (let? (l, _) := removeWithNotification (slot s x f) other in Some (setSlot s x f l))
        else if isContainer M f then basicSetContainerA s x None (getFeatureID M x f)
        else justA (setSlot s x f [])
    end.

  (** abstracteobject.go:661-667 (EInverseRemove) *)
  Definition inverseRemoveA (s : state) (x other : obj) (id : Z) : editA :=
    if id >=? 0 then basicInverseRemoveA s x other id else basicSetContainerA s x None id.

  (** abstracteobject.go:854-877 (EBasicRemoveFromContainer, EBasicRemoveFromContainerFeature) *)
  Definition removeFromContainerA (s : state) (x : obj) : editA :=
    let id := containerFeatureID s x in
    match container s x with
    | None => justA s
    | Some c =>
        if id >=? 0 then
          match feature_at M x id with
          | None => justA s
          | Some g => match f_opp M g with
                      | None => justA s
                      | Some f => inverseRemoveA s c x (f_id M f)
                      end
          end
        else inverseRemoveA s c x (BASE - id)
    end.

  (** abstracteobject.go:675-736 (EBasicInverseAdd, eDynamicPropertiesInverseAdd) *)
  Definition basicInverseAddA (s : state) (x other : obj) (id : Z) : editA :=
    match feature_at M x id with
    | None => None
    | Some f =>
        if f_many M f then
          liftA (let? (l, _) := doAdd (slot s x f) other in Some (setSlot s x f l))
        else if isContainer M f then
          let# s1 := removeFromContainerA s x in
          basicSetContainerA s1 x (Some other) (getFeatureID M x f)
        else
          let# s1 :=
            match slot s x f with
            | y :: _ =>
                if f_cont M f then inverseRemoveA s y x (BASE - getFeatureID M x f)
                else match f_opp M f with
                     | Some g => inverseRemoveA s y x (getFeatureID M y g)
                     | None => justA s
                     end
            | [] => justA s
            end in
          justA (setSlot s1 x f [other])
    end.

  (** abstracteobject.go:650-658 (EInverseAdd) *)
  Definition inverseAddA (s : state) (x other : obj) (id : Z) : editA :=
    if id >=? 0 then basicInverseAddA s x other id
    else let# s1 := removeFromContainerA s x in basicSetContainerA s1 x (Some other) id.

  (** [if x != nil { f(x) }] *)
  Definition whenA (v : option obj) (s : state) (f : obj -> editA) : editA :=
    match v with Some x => f x | None => justA s end.

  (** abstracteobject.go:419-499 (eDynamicPropertiesSet) on a single-valued reference *)
  Definition eSetA (s : state) (o : obj) (f : feature) (v : option obj) : editA :=
    if isContainer M f then
      let id := getFeatureID M o f in
      let oldContainer := container s o in
      if negb (some_eqb v oldContainer)
         || (match v with Some _ => negb (containerFeatureID s o =? id) | None => false end)
      then
        let# s1 := whenA oldContainer s (fun _ => removeFromContainerA s o) in
        let# s2 := whenA v s1 (fun c => match f_opp M f with
                                        | None => None
                                        | Some g => inverseAddA s1 c o (getFeatureID M c g)
                                        end) in
        basicSetContainerA s2 o v id
      else justA s
    else if isBidirectional M f || f_cont M f then
      let old := hd_error (slot s o f) in
      if some_eqb old v then justA s
      else
        let# s2 :=
          match f_opp M f with
          | None =>
              let id := getFeatureID M o f in
              let# s1 := whenA old s (fun y => inverseRemoveA s y o (BASE - id)) in
              whenA v s1 (fun x => inverseAddA s1 x o (BASE - id))
          | Some g =>
              let# s1 := whenA old s (fun y => inverseRemoveA s y o (getFeatureID M y g)) in
              whenA v s1 (fun x => inverseAddA s1 x o (getFeatureID M x g))
          end in
        justA (setSlot s2 o f (to_list v))
    else justA (setSlot s o f (to_list v)).

  (** abstracteobject.go:568-629 (eDynamicPropertiesUnset) *)
  Definition eUnsetA (s : state) (o : obj) (f : feature) : editA :=
    if isContainer M f then
      match container s o with
      | Some _ =>
          let# s1 := removeFromContainerA s o in
          basicSetContainerA s1 o None (getFeatureID M o f)
      | None => justA s
      end
    else if isBidirectional M f || f_cont M f then
      let old := if f_many M f then None else hd_error (slot s o f) in
      let# s1 :=
        whenA old s (fun y =>
          match f_opp M f with
          | None => inverseRemoveA s y o (BASE - getFeatureID M o f)
          | Some g => inverseRemoveA s y o (getFeatureID M y g)
          end) in
      justA (setSlot s1 o f [])
    else justA (setSlot s o f []).

  (** basiceobjectlist.go:121-145 (inverseAdd, inverseRemove) *)
  Definition listInverseAddA (s : state) (o : obj) (f : feature) (x : obj) : editA :=
    match f_opp M f with
    | Some g => inverseAddA s x o (f_id M g)
    | None => if f_cont M f then inverseAddA s x o (BASE - f_id M f) else justA s
    end.
  Definition listInverseRemoveA (s : state) (o : obj) (f : feature) (x : obj) : editA :=
    match f_opp M f with
    | Some g => inverseRemoveA s x o (f_id M g)
    | None => if f_cont M f then inverseRemoveA s x o (BASE - f_id M f) else justA s
    end.

  Fixpoint foldA (f : state -> obj -> editA) (l : list obj) (s : state) : editA :=
    match l with
    | [] => justA s
    | x :: l' => let# s' := f s x in foldA f l' s'
    end.

  (** an operation on o.EGet(f), a basicEObjectList (basicenotifyinglist.go:175-347) *)
  Definition listOpA (s : state) (o : obj) (f : feature) (p : op nat) : editA :=
    match list_effect (slot s o f) p with
    | None => None
    | Some (st, removed, added) =>
        let s0 := setSlot s o f (final (slot s o f) st) in
        let# s1 := foldA (fun s x => listInverseRemoveA s o f x) removed s0 in
        foldA (fun s x => listInverseAddA s o f x) added s1
    end.

  (** abstracteobject.go:139-171 (ESetResource) *)
  Definition eSetResourceA (s : state) (x : obj) (newResource : option resource) : editA :=
    let oldResource := internalResource s x in
    let# s1 := match oldResource, newResource with
               | Some r, Some _ => let# s' := liftA (contentsRemove s r x) in detached s' r x
               | _, _ => justA s
               end in
    let# s2 := match container s1 x with
               | Some c =>
                   match eContainmentFeature M x c (containerFeatureID s1 x) with
                   | None => None
                   | Some f =>
                       if f_resolve M f then
                         match eResource fuel s1 c with
                         | None => None
                         | Some None => justA s1
                         | Some (Some q) =>
                             match newResource, oldResource with
                             | None, _ => attached s1 q x
                             | Some _, None => detached s1 q x
                             | Some _, Some _ => justA s1
                             end
                         end
                       else let# s' := removeFromContainerA s1 x in basicSetContainerA s' x None (-1)
                   end
               | None => justA s1
               end in
    justA (setResource s2 x newResource).

  (** eresource_impl.go:79-97: inverseAdd and inverseRemove of the contents list *)
  Definition contentsInverseAddA (s : state) (r : resource) (x : obj) : editA :=
    let# s1 := eSetResourceA s x (Some r) in attached s1 r x.
  Definition contentsInverseRemoveA (s : state) (r : resource) (x : obj) : editA :=
    let# s1 := detached s r x in eSetResourceA s1 x None.
  Definition contentsOpA (s : state) (r : resource) (p : op nat) : editA :=
    match list_effect (contents s r) p with
    | None => None
    | Some (st, removed, added) =>
        let s0 := contentsStages s r st in
        let# s1 := foldA (fun s x => contentsInverseRemoveA s r x) removed s0 in
        foldA (fun s x => contentsInverseAddA s r x) added s1
    end.

  (** eresource_impl.go:474-491 (Unload, DoUnload): the manager is cleared *)
  Definition unloadA (s : state) (r : resource) : editA :=
    let? s' := unload s r in Some (s', if loaded s r then [Clr r] else []).

  Definition gstepA (s : state) (p : gop) : editA :=
    match p with
    | OSet o f v => match accessed M o f with None => None | Some f' => eSetA s o f' v end
    | OUnset o f => match accessed M o f with None => None | Some f' => eUnsetA s o f' end
    | OList o f p => match accessed M o f with None => None | Some f' => listOpA s o f' p end
    | OContents r p => contentsOpA s r p
    | OUnload r => unloadA s r
    end.
End Attach.

(** what the id manager of a resource holds: the objects registered and not unregistered since *)
Definition registry := resource -> obj -> bool.
Definition hear (k : registry) (e : announce) : registry :=
  match e with
  | Att r x => fun q y => if Nat.eqb q r && Nat.eqb y x then true else k q y
  | Det r x => fun q y => if Nat.eqb q r && Nat.eqb y x then false else k q y
  | Clr r => fun q y => if Nat.eqb q r then false else k q y
  end.
Definition hear_all (k : registry) (es : list announce) : registry := fold_left hear es k.

(** a history: the graph and the registries after it *)
Fixpoint runA (M : metamodel) (fuel : nat) (s : state) (k : registry) (ps : list gop) : option (state * registry) :=
  match ps with
  | [] => Some (s, k)
  | p :: ps' => let? (s', es) := gstepA M fuel s p in runA M fuel s' (hear_all k es) ps'
  end.
