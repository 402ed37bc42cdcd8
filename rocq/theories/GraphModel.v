(** Model of the object graph of soft.go: ecore/abstracteobject.go, ecore/basiceobjectlist.go,
    ecore/basicenotifyinglist.go and the contents list of ecore/eresource_impl.go.

    Objects, features, classes and resources are numbers.  The metamodel is fixed while objects are
    edited.  Objects are dynamic objects (ecore/dynamiceobject_impl.go), so every feature lives in the
    dynamic properties (EStaticFeatureCount() = 0).

    Simplifications:
    - only references are modelled; attributes never touch another object;
    - proxies are not modelled: every stored value is a resolved object
      (abstracteobject.go:257-340, basiceobjectlist.go:95-119 do nothing then);
    - notifications are not recorded; adapters are assumed not to edit the graph re-entrantly;
    - Attached/Detached calls (resource ID managers and listeners) change no part of this state;
      the EResource() calls that choose their receiver can diverge, see [GraphTheorems]. *)
From Verif Require Import Base ListModel NotifyModel.

Notation obj := nat (only parsing).
Notation feature := nat (only parsing).
Notation resource := nat (only parsing).

(** An EReference: IsMany, IsContainment, GetEOpposite, IsResolveProxies, and the [featureID] stored
    in the feature itself (ecore/estructuralfeature_ext.go:67-77). *)
Record featureInfo := FI {
  many : bool;
  containment : bool;
  opposite : option feature;
  resolveProxies : bool;
  featureID : Z
}.

(** [info] describes the features, [allFeatures c] is c.GetEAllStructuralFeatures(), [classOf o] is
    o.EClass(). *)
Record metamodel := MM {
  info : feature -> featureInfo;
  allFeatures : nat -> list feature;
  classOf : obj -> nat
}.

(** The mutable state.  [slot o f] is the value of a non-container reference: a list for a
    many-valued one, at most one element for a single-valued one.  The Go code indexes the properties
    by the position of the feature in the class; this is the same thing as long as a class does not
    list one feature twice. *)
Record state := St {
  container : obj -> option obj;          (* EInternalContainer *)
  containerFeatureID : obj -> Z;          (* EInternalContainerFeatureID *)
  internalResource : obj -> option resource;  (* EInternalResource *)
  slot : obj -> feature -> list obj;      (* EDynamicProperties *)
  contents : resource -> list obj;        (* EResourceImpl.contents *)
  loaded : resource -> bool               (* EResourceImpl.isLoaded *)
}.

(** basiceobject_impl.go, eresource_impl.go: the state of new objects and resources *)
Definition init : state :=
  St (fun _ => None) (fun _ => -1) (fun _ => None) (fun _ _ => []) (fun _ => []) (fun _ => false).

Definition upd {B} (g : nat -> B) (k : nat) (v : B) : nat -> B :=
  fun j => if (j =? k)%nat then v else g j.

Definition setContainer (s : state) (x : obj) (c : option obj) (id : Z) : state :=
  St (upd (container s) x c) (upd (containerFeatureID s) x id) (internalResource s) (slot s)
     (contents s) (loaded s).
Definition setResource (s : state) (x : obj) (r : option resource) : state :=
  St (container s) (containerFeatureID s) (upd (internalResource s) x r) (slot s) (contents s) (loaded s).
Definition setSlot (s : state) (o : obj) (f : feature) (l : list obj) : state :=
  St (container s) (containerFeatureID s) (internalResource s)
     (upd (slot s) o (upd (slot s o) f l)) (contents s) (loaded s).
Definition setContents (s : state) (r : resource) (l : list obj) : state :=
  St (container s) (containerFeatureID s) (internalResource s) (slot s) (upd (contents s) r l) (loaded s).
Definition setLoaded (s : state) (r : resource) (b : bool) : state :=
  St (container s) (containerFeatureID s) (internalResource s) (slot s) (contents s) (upd (loaded s) r b).

Notation list_op := (op nat) (only parsing).

(** ** List primitives with their callbacks *)

(** basicenotifyinglist.go:157-166 (RemoveWithNotification): IndexOf then performRemove *)
Definition removeWithNotification (l : list obj) (x : obj) : option (list obj * list (@callback nat)) :=
  let index := indexOf Nat.eqb l x in
  if index =? -1 then Some (l, [])
  else let? (l', _, cb) := doRemove 0%nat l index in Some (l', cb).

(** The stages of the removal loop of basicenotifyinglist.go:322-324: each performRemove runs its
    callbacks before the next one. *)
Fixpoint removeStages (data : list obj) (rev_positions : list Z)
  : option (list (list obj * list (@callback nat))) :=
  match rev_positions with
  | [] => Some []
  | p :: ps =>
      let? (d, _, cb) := doRemove 0%nat data p in
      let? rest := removeStages d ps in
      Some ((d, cb) :: rest)
  end.

(** One call on a unique notifying list: the successive contents with the callbacks run at each of
    them, then the elements given to inverseRemove, then those given to inverseAdd, in order.
    [None]: the call panics.  Same case analysis as [NotifyModel.nstep] on a unique list
    (NewBasicEObjectList and newResourceContents set isUnique), see [GraphProofs.effect_nstep]. *)
Definition list_effect (data : list obj) (o : list_op)
  : option (list (list obj * list (@callback nat)) * list obj * list obj) :=
  match o with
  (* abstractelist.go:78-85, basicenotifyinglist.go:175-181 *)
  | Add e =>
      if contains Nat.eqb data e then Some ([], [], [])
      else let? (d, cb) := doAdd data e in Some ([(d, cb)], [], [e])
  (* abstractelist.go:87-96, basicenotifyinglist.go:183-186 *)
  | AddAll c =>
      let l := getNonDuplicates Nat.eqb data (elems data c) in
      if zlen l =? 0 then Some ([], [], [])
      else let? (d, _, cb) := doInsertAll data (zlen data) l in Some ([(d, cb)], [], l)
  (* abstractelist.go:98-108, basicenotifyinglist.go:188-193 *)
  | Insert i e =>
      if (i <? 0) || (i >? zlen data) then None
      else if contains Nat.eqb data e then Some ([], [], [])
      else let? (d, cb) := doInsert 0%nat data i e in Some ([(d, cb)], [], [e])
  (* abstractelist.go:110-123, basicenotifyinglist.go:195-213 *)
  | InsertAll i c =>
      if (i <? 0) || (i >? zlen data) then None
      else
        let l := getNonDuplicates Nat.eqb data (elems data c) in
        if zlen l =? 0 then Some ([], [], [])
        else let? (d, _, cb) := doInsertAll data i l in Some ([(d, cb)], [], l)
  (* abstractelist.go:125-141, basicenotifyinglist.go:249-254 *)
  | MoveObject i e =>
      let oldIndex := indexOf Nat.eqb data e in
      if oldIndex =? -1 then None
      else let? (d, _, cb) := doMove data oldIndex i in Some ([(d, cb)], [], [])
  | Move i j =>
      if (i <? 0) || (i >=? zlen data) || (j <? 0) || (j >? zlen data) then None
      else let? (d, _, cb) := doMove data i j in Some ([(d, cb)], [], [])
  (* abstractelist.go:144-161, basicenotifyinglist.go:256-265 *)
  | RemoveAt i =>
      if (i <? 0) || (i >=? zlen data) then None
      else let? (d, x, cb) := doRemove 0%nat data i in Some ([(d, cb)], [x], [])
  | Remove e =>
      let index := indexOf Nat.eqb data e in
      if index =? -1 then Some ([], [], [])
      else let? (d, x, cb) := doRemove 0%nat data index in Some ([(d, cb)], [x], [])
  (* abstractelist.go:163-176, basicenotifyinglist.go:267-291 *)
  | RemoveRange i j =>
      if (i <? 0) || (i >=? zlen data) then None
      else if (j <? 0) || (j >? zlen data) then None
      else if i >? j then None
      else let? (d, objects, cb) := doRemoveRange data i j in Some ([(d, cb)], objects, [])
  (* basicenotifyinglist.go:293-347, basiceobjectlist.go:66-71 *)
  | RemoveAll c =>
      let pr := scanRemoved Nat.eqb 0 data (elems data c) in
      let? st := removeStages data (rev (map fst pr)) in Some (st, map snd pr, [])
  (* abstractelist.go:200-212, basicenotifyinglist.go:215-225 *)
  | SetAt i e =>
      if (i <? 0) || (i >=? zlen data) then None
      else
        let currIndex := indexOf Nat.eqb data e in
        if (currIndex >=? 0) && negb (currIndex =? i) then None
        else let? (d, old, cb) := doSet data i e in
             if Nat.eqb e old then Some ([(d, cb)], [], []) else Some ([(d, cb)], [old], [e])
  (* basicenotifyinglist.go:227-247 *)
  | Clear => let? (d, old, cb) := doClear data in Some ([(d, cb)], old, [])
  (* queries *)
  | Get i => if (i <? 0) || (i >=? zlen data) then None else Some ([], [], [])
  | Size | Empty | Contains _ | IndexOf _ | ToArray => Some ([], [], [])
  end.

(** contents after the stages *)
Fixpoint final (data : list obj) (st : list (list obj * list (@callback nat))) : list obj :=
  match st with
  | [] => data
  | (d, _) :: st' => final d st'
  end.

(** eresource_impl.go:99-134: the callbacks of the contents list drive [isLoaded]; [Size()] is the
    size after the primitive. *)
Definition didContents (size : Z) (b : bool) (cb : @callback nat) : bool :=
  match cb with
  | DidAdd index _ => if index =? size - 1 then true else b
  | DidRemove _ _ => if size =? 0 then false else b
  | DidClear _ => false
  | _ => b
  end.
Fixpoint contentsStages (s : state) (r : resource) (st : list (list obj * list (@callback nat))) : state :=
  match st with
  | [] => s
  | (d, cb) :: st' =>
      contentsStages (setLoaded (setContents s r d) r (fold_left (didContents (zlen d)) cb (loaded s r))) r st'
  end.
(** [oldResource.GetContents().RemoveWithNotification(o)], abstracteobject.go:144-145,795-796 *)
Definition contentsRemove (s : state) (r : resource) (x : obj) : option state :=
  let? (d, cb) := removeWithNotification (contents s r) x in
  Some (contentsStages s r (match cb with [] => [] | _ => [(d, cb)] end)).

Section Graph.
  Context (M : metamodel).

  Definition f_many f := many (info M f).
  Definition f_cont f := containment (info M f).
  Definition f_opp f := opposite (info M f).
  Definition f_resolve f := resolveProxies (info M f).
  Definition f_id f := featureID (info M f).
  Definition features o := allFeatures M (classOf M o).

  (** estructuralfeature_ext.go:79-99 (IsBidirectional, IsContainer) *)
  Definition isBidirectional f := match f_opp f with Some _ => true | None => false end.
  Definition isContainer f := match f_opp f with Some g => f_cont g | None => false end.

  (** eclass_ext.go:130-136 (GetEStructuralFeature); [None] is nil, and a later use of it panics *)
  Definition feature_at (o : obj) (id : Z) : option feature := zget (features o) id.
  (** eclass_ext.go:158-169 (GetFeatureID): linear search from the stored id *)
  Fixpoint index_from (i : Z) (l : list feature) (f : feature) : Z :=
    match l with
    | [] => -1
    | g :: l' => if Nat.eqb g f then i else index_from (i + 1) l' f
    end.
  Definition getFeatureID (o : obj) (f : feature) : Z :=
    if f_id f =? -1 then -1
    else index_from (f_id f) (skipn (Z.to_nat (f_id f)) (features o)) f.

  Definition BASE : Z := -1.   (* constants.go:13, EOPPOSITE_FEATURE_BASE *)

  (** abstracteobject.go:193-211 (eContainmentFeature), [None] is the panic of line 208 *)
  Definition eContainmentFeature (x c : obj) (id : Z) : option feature :=
    if id <=? BASE then feature_at c (BASE - id) else feature_at x id.

  (** abstracteobject.go:174-185 (EContainingFeature) *)
  Definition eContainingFeature (s : state) (x : obj) : option feature :=
    match container s x with
    | None => None
    | Some c =>
        let id := containerFeatureID s x in
        if id <=? BASE then feature_at c (BASE - id)
        else let? f := feature_at x id in f_opp f
    end.

  (** abstracteobject.go:782-851 (EBasicSetContainer) *)
  Definition basicSetContainer (s : state) (x : obj) (c : option obj) (id : Z) : option state :=
    let? s1 :=
      match internalResource s x, c with
      | Some r, Some c' =>
          let? f := eContainmentFeature x c' id in
          if negb (f_resolve f)
          then let? s1 := contentsRemove s r x in Some (setResource s1 x None)
          else Some s
      | _, _ => Some s
      end in
    Some (setContainer s1 x c id).

  (** abstracteobject.go:738-779 (EBasicInverseRemove, eDynamicPropertiesInverseRemove) *)
  Definition basicInverseRemove (s : state) (x other : obj) (id : Z) : option state :=
    let? f := feature_at x id in
    if f_many f then
      let? (l, _) := removeWithNotification (slot s x f) other in Some (setSlot s x f l)
    else if isContainer f then basicSetContainer s x None (getFeatureID x f)
    else Some (setSlot s x f []).

  (** abstracteobject.go:661-667 (EInverseRemove) *)
  Definition inverseRemove (s : state) (x other : obj) (id : Z) : option state :=
    if id >=? 0 then basicInverseRemove s x other id else basicSetContainer s x None id.

  (** abstracteobject.go:854-877 (EBasicRemoveFromContainer, EBasicRemoveFromContainerFeature) *)
  Definition removeFromContainer (s : state) (x : obj) : option state :=
    let id := containerFeatureID s x in
    match container s x with
    | None => Some s
    | Some c =>
        if id >=? 0 then
          match feature_at x id with
          | None => Some s
          | Some g => match f_opp g with
                      | None => Some s
                      | Some f => inverseRemove s c x (f_id f)
                      end
          end
        else inverseRemove s c x (BASE - id)
    end.

  (** abstracteobject.go:675-736 (EBasicInverseAdd, eDynamicPropertiesInverseAdd) *)
  Definition basicInverseAdd (s : state) (x other : obj) (id : Z) : option state :=
    let? f := feature_at x id in
    if f_many f then
      (* AddWithNotification does not test uniqueness, basicenotifyinglist.go:149-154 *)
      let? (l, _) := doAdd (slot s x f) other in Some (setSlot s x f l)
    else if isContainer f then
      let? s1 := removeFromContainer s x in
      basicSetContainer s1 x (Some other) (getFeatureID x f)
    else
      let? s1 :=
        match slot s x f with
        | y :: _ =>
            if f_cont f then inverseRemove s y x (BASE - getFeatureID x f)
            else match f_opp f with
                 | Some g => inverseRemove s y x (getFeatureID y g)
                 | None => Some s
                 end
        | [] => Some s
        end in
      Some (setSlot s1 x f [other]).

  (** abstracteobject.go:650-658 (EInverseAdd) *)
  Definition inverseAdd (s : state) (x other : obj) (id : Z) : option state :=
    if id >=? 0 then basicInverseAdd s x other id
    else let? s1 := removeFromContainer s x in basicSetContainer s1 x (Some other) id.

  Definition some_eqb (a b : option obj) : bool :=
    match a, b with
    | Some x, Some y => Nat.eqb x y
    | None, None => true
    | _, _ => false
    end.
  Definition to_list (v : option obj) : list obj := match v with Some x => [x] | None => [] end.

  (** [if x != nil { f(x) }] *)
  Definition when (v : option obj) (s : state) (f : obj -> option state) : option state :=
    match v with Some x => f x | None => Some s end.

  (** abstracteobject.go:419-499 (eDynamicPropertiesSet) on a single-valued reference *)
  Definition eSet (s : state) (o : obj) (f : feature) (v : option obj) : option state :=
    if isContainer f then
      let id := getFeatureID o f in
      let oldContainer := container s o in
      if negb (some_eqb v oldContainer)
         || (match v with Some _ => negb (containerFeatureID s o =? id) | None => false end)
      then
        let? s1 := when oldContainer s (fun _ => removeFromContainer s o) in
        let? s2 := when v s1 (fun c => let? g := f_opp f in inverseAdd s1 c o (getFeatureID c g)) in
        basicSetContainer s2 o v id
      else Some s
    else if isBidirectional f || f_cont f then
      let old := hd_error (slot s o f) in
      if some_eqb old v then Some s
      else
        let? s2 :=
          match f_opp f with
          | None =>
              let id := getFeatureID o f in
              let? s1 := when old s (fun y => inverseRemove s y o (BASE - id)) in
              when v s1 (fun x => inverseAdd s1 x o (BASE - id))
          | Some g =>
              let? s1 := when old s (fun y => inverseRemove s y o (getFeatureID y g)) in
              when v s1 (fun x => inverseAdd s1 x o (getFeatureID x g))
          end in
        Some (setSlot s2 o f (to_list v))
    else Some (setSlot s o f (to_list v)).

  (** abstracteobject.go:568-629 (eDynamicPropertiesUnset) on any reference.  The value of a
      many-valued reference is a list, which is not an EObject (line 585). *)
  Definition eUnset (s : state) (o : obj) (f : feature) : option state :=
    if isContainer f then
      match container s o with
      | Some _ =>
          let? s1 := removeFromContainer s o in
          basicSetContainer s1 o None (getFeatureID o f)
      | None => Some s
      end
    else if isBidirectional f || f_cont f then
      let old := if f_many f then None else hd_error (slot s o f) in
      let? s1 :=
        when old s (fun y =>
          match f_opp f with
          | None => inverseRemove s y o (BASE - getFeatureID o f)
          | Some g => inverseRemove s y o (getFeatureID y g)
          end) in
      Some (setSlot s1 o f [])
    else Some (setSlot s o f []).

  (** basiceobjectlist.go:121-145 (inverseAdd, inverseRemove) with the arguments chosen by
      abstracteobject.go:357-388 (eDynamicPropertiesCreateList) *)
  Definition listInverseAdd (s : state) (o : obj) (f : feature) (x : obj) : option state :=
    match f_opp f with
    | Some g => inverseAdd s x o (f_id g)
    | None => if f_cont f then inverseAdd s x o (BASE - f_id f) else Some s
    end.
  Definition listInverseRemove (s : state) (o : obj) (f : feature) (x : obj) : option state :=
    match f_opp f with
    | Some g => inverseRemove s x o (f_id g)
    | None => if f_cont f then inverseRemove s x o (BASE - f_id f) else Some s
    end.

  Fixpoint foldM (f : state -> obj -> option state) (l : list obj) (s : state) : option state :=
    match l with
    | [] => Some s
    | x :: l' => let? s' := f s x in foldM f l' s'
    end.

  (** an operation on o.EGet(f), a basicEObjectList *)
  Definition listOp (s : state) (o : obj) (f : feature) (op : list_op) : option state :=
    let? (st, removed, added) := list_effect (slot s o f) op in
    let s0 := setSlot s o f (final (slot s o f) st) in
    let? s1 := foldM (fun s x => listInverseRemove s o f x) removed s0 in
    foldM (fun s x => listInverseAdd s o f x) added s1.

  (** abstracteobject.go:139-171 (ESetResource) *)
  Definition eSetResource (s : state) (x : obj) (newResource : option resource) : option state :=
    let? s1 := match internalResource s x, newResource with
               | Some r, Some _ => contentsRemove s r x
               | _, _ => Some s
               end in
    let? s2 := match container s1 x with
               | Some c =>
                   let? f := eContainmentFeature x c (containerFeatureID s1 x) in
                   if f_resolve f then Some s1
                   else let? s' := removeFromContainer s1 x in basicSetContainer s' x None (-1)
               | None => Some s1
               end in
    Some (setResource s2 x newResource).

  (** eresource_impl.go:79-97: inverseAdd/inverseRemove of the contents list *)
  Definition contentsOp (s : state) (r : resource) (op : list_op) : option state :=
    let? (st, removed, added) := list_effect (contents s r) op in
    let s0 := contentsStages s r st in
    let? s1 := foldM (fun s x => eSetResource s x None) removed s0 in
    foldM (fun s x => eSetResource s x (Some r)) added s1.

  (** eresource_impl.go:474-491 (Unload, DoUnload): only when loaded; the list is dropped *)
  Definition unload (s : state) (r : resource) : option state :=
    if loaded s r then Some (setLoaded (setContents s r []) r false) else Some s.

  (** abstracteobject.go:218-227 (EFeatureID) followed by GetEStructuralFeature of that id
      (lines 241-260, 391-402, 540-551): the feature a call through [f] acts on *)
  Definition accessed (o : obj) (f : feature) : option feature :=
    if existsb (Nat.eqb f) (features o) then feature_at o (f_id f) else None.

  Inductive gop :=
  | OSet (o : obj) (f : feature) (v : option obj)
  | OUnset (o : obj) (f : feature)
  | OList (o : obj) (f : feature) (p : list_op)
  | OContents (r : resource) (p : list_op)
  | OUnload (r : resource).

  Definition gstep (s : state) (p : gop) : option state :=
    match p with
    | OSet o f v => let? f' := accessed o f in eSet s o f' v
    | OUnset o f => let? f' := accessed o f in eUnset s o f'
    | OList o f p => let? f' := accessed o f in listOp s o f' p
    | OContents r p => contentsOp s r p
    | OUnload r => unload s r
    end.

  Fixpoint grun (s : state) (ps : list gop) : option state :=
    match ps with
    | [] => Some s
    | p :: ps' => let? s' := gstep s p in grun s' ps'
    end.

  (** ecoreutils.go:173-189 (Remove).  EContainmentFeature (abstracteobject.go:188-191) is
      [eContainmentFeature] of the current container. *)
  Definition containmentFeature (s : state) (x : obj) : option feature :=
    match container s x with
    | Some c => eContainmentFeature x c (containerFeatureID s x)
    | None => None
    end.
  Definition removeObject (s : state) (x : obj) : option state :=
    let? s1 :=
      match container s x with
      | Some c =>
          let? f := containmentFeature s x in
          if f_many f then gstep s (OList c f (Remove x)) else gstep s (OUnset c f)
      | None => Some s
      end in
    match internalResource s1 x with
    | Some r => contentsOp s1 r (Remove x)
    | None => Some s1
    end.

  (** abstracteobject.go:259-300 (EGetFromID without proxies): the value of a reference *)
  Definition eGet (s : state) (o : obj) (f : feature) : option (list obj) :=
    let? f' := accessed o f in
    Some (if isContainer f' then
            if containerFeatureID s o =? getFeatureID o f' then to_list (container s o) else []
          else slot s o f').

  (** abstracteobject.go:128-136 (EResource): [None] when [fuel] calls were not enough *)
  Fixpoint eResource (fuel : nat) (s : state) (x : obj) : option (option resource) :=
    match fuel with
    | O => None
    | S n =>
        match internalResource s x with
        | Some r => Some (Some r)
        | None =>
            match container s x with
            | Some c => if Nat.eqb c x then Some None else eResource n s c
            | None => Some None
            end
        end
    end.
End Graph.
