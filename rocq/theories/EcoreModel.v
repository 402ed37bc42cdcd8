(** Model of soft.go's own metamodel and of its generated classes: what the statements listed in
    [EcoreTables] do.  The state is that of [GraphModel] (references) and, separately, the fields
    that hold attributes.

    Simplifications, besides those of [GraphModel]:
    - all objects are instances of the generated classes (an annotation's contents may be others);
    - the derived references that cannot be changed (eAllAttributes, eReferenceType, ...) are
      computed by eclass_ext.go and others, see [ClassModel] and [MetaModel]; here they only occur as
      features without a case in ESetFromID and EUnsetFromID;
    - the type assertions on the container in generated getters (e.EContainer().(EPackage)) are only
      modelled as far as they panic on nil;
    - EPackageExt.Initialize gives a new package a factory (epackage_ext.go:46-51): an ordinary call
      of SetEFactoryInstance, made here by the program. *)
From Verif Require Import Base ListModel NotifyModel GraphModel EcoreSyntax EcoreTables.

(** ** Looking up cases and methods *)

Definition class_at (c : nat) : class := nth c classes EObject_class.

(** the struct of a class and those it embeds, outermost first *)
Fixpoint embedded (fuel : nat) (c : nat) : list nat :=
  match fuel with
  | O => []
  | S n => c :: match c_embeds (class_at c) with Some p => embedded n p | None => [] end
  end.
(** (the tables that follow are only there to compute each row once) *)
Definition struct_table : list (list nat) := map (embedded class_count) (seq 0 class_count).
Definition structs (c : nat) : list nat := nth c struct_table [].

Fixpoint assocZ {A} (l : list (Z * A)) (k : Z) : option A :=
  match l with
  | [] => None
  | (k', a) :: l' => if k' =? k then Some a else assocZ l' k
  end.
Fixpoint assocS {A} (l : list (string * A)) (k : string) : option A :=
  match l with
  | [] => None
  | (k', a) :: l' => if String.eqb k' k then Some a else assocS l' k
  end.

(** the switch statements: the [default] case of each calls the method of the embedded struct *)
Fixpoint find_case {A} (t : class -> list (Z * A)) (ks : list nat) (id : Z) : option (nat * A) :=
  match ks with
  | [] => None
  | k :: ks' => match assocZ (t (class_at k)) id with Some a => Some (k, a) | None => find_case t ks' id end
  end.
(** method promotion through embedded structs.  The e*_ext.go structs between two generated ones
    override none of the methods used for the references that can be changed. *)
Fixpoint find_method {A} (t : class -> list (string * A)) (ks : list nat) (m : string) : option (nat * A) :=
  match ks with
  | [] => None
  | k :: ks' => match assocS (t (class_at k)) m with Some a => Some (k, a) | None => find_method t ks' m end
  end.

(** ** The metamodel, ecorepackage_impl.go *)

(** Features are numbered in the order of their creation. *)
Definition feature_count : nat := List.length created.
Definition created_at (f : feature) : nat * bool * Z := nth f created (class_count, false, -1).
(** c.GetEStructuralFeatures(): CreateEAttribute and CreateEReference append to it *)
Definition own_features (c : nat) : list feature :=
  filter (fun f => Nat.eqb (fst (fst (created_at f))) c) (seq 0 feature_count).
(** c.GetESuperTypes() *)
Definition supers (c : nat) : list nat :=
  map snd (filter (fun p => Nat.eqb (fst p) c) supertypes).
(** eclass_ext.go:381-404 (initEAllStructuralFeatures) *)
Fixpoint all_features (fuel : nat) (c : nat) : list feature :=
  match fuel with
  | O => []
  | S n => flat_map (all_features n) (supers c) ++ own_features c
  end.
Definition feature_table : list (list feature) := map (all_features class_count) (seq 0 class_count).
Definition featuresOf (c : nat) : list feature := nth c feature_table [].

(** p.GetX_Y(): the feature at a position of the class *)
Definition accessor_table : list (string * option feature) :=
  map (fun p => (fst p, nth_error (own_features (fst (snd p))) (snd (snd p)))) getters.
Definition accessor (g : string) : option feature :=
  match assocS accessor_table g with Some f => f | None => None end.
(** the description given to a feature by initializePackageContents *)
Definition description_table : list (option description) :=
  map (fun f => find (fun d => match accessor (d_getter d) with Some f' => Nat.eqb f' f | None => false end) descriptions)
      (seq 0 feature_count).
Definition description_of (f : feature) : option description := nth f description_table None.
(** etypedelement_ext.go:25-28 (IsMany) *)
Definition is_many (d : description) : bool := (d_upper d >? 1) || (d_upper d =? -1).
Definition info_of (f : feature) : featureInfo :=
  match description_of f with
  | Some d =>
      FI (is_many d) (d_containment d) (match d_opposite d with Some g => accessor g | None => None end)
         (d_resolveProxies d) (snd (created_at f))
  | None => FI false false None false (-1)
  end.
Definition info_table : list featureInfo := map info_of (seq 0 feature_count).
Definition ecore_info (f : feature) : featureInfo := nth f info_table (FI false false None false (-1)).
Definition is_reference (f : feature) : bool := snd (fst (created_at f)).

(** [classOf] gives every object its class; EClass() of a generated object is its EStaticClass()
    (abstracteobject.go:83-85) *)
Definition ecore (classOf : obj -> nat) : metamodel :=
  MM ecore_info (fun c => featuresOf (fst (c_static (class_at c)))) classOf.

(** Go's x.(T) for an interface of the metamodel *)
Definition conforms (c : nat) (t : nat) : bool := existsb (Nat.eqb t) (structs c).

(** ** Where a field is: the feature whose getter reads it *)
Definition getter_field (g : getter) : option string :=
  match g with
  | MField fld | MLazy fld _ | MLazyInt fld _ | MInit _ fld | MResolved fld => Some fld
  | MContainer _ | MPanic => None
  end.
Definition get_method (g : get_case) : string :=
  match g with GCall m | GResolve m | GListUnres m => m end.
Definition field_feature (k : nat) (fld : string) : option feature :=
  let cls := class_at k in
  let? (id, _) := find (fun p => match assocS (c_getters cls) (get_method (snd p)) with
                                 | Some g => match getter_field g with
                                             | Some fld' => String.eqb fld' fld
                                             | None => false
                                             end
                                 | None => false
                                 end) (c_get cls) in
  zget (featuresOf k) id.

(** ** What the methods do, with names replaced by features *)
Inductive store := SContainer (id : Z) | SSlot (f : feature).
Inductive add_act := AddTo (f : feature) | AddContainer (st : store) | AddSingle (f : feature) (id : Z) (st : store).
Inductive remove_act := RemoveFrom (f : feature) | RemoveStore (st : store) | RemoveNothing.
(** a list: where it is kept and the arguments of NewBasicEObjectList *)
Record list_args := LA {
  l_slot : feature; l_id : Z; l_inverseID : Z;
  l_containment : bool; l_inverse : bool; l_opposite : bool; l_proxies : bool; l_unset : bool
}.
Inductive set_act :=
| SetField (t : nat) (f : feature)
| SetContainer (t : nat) (id opp : Z) (st : store)
| SetContained (t : nat) (f : feature) (rem add : Z) (st : store)
| SetList (l : list_args).
Inductive unset_act := UnsetSet (a : set_act) | UnsetClear (l : list_args) | UnsetField (f : feature).
Inductive get_act := GetContainer (id : Z) | GetSlot (f : feature) | GetList (l : list_args).

(** outcome of looking for a case: the one found, none, or a name that does not exist (the Go program
    would not compile) *)
Inductive lookup (A : Type) := Found (a : A) | Inherited | Broken.
Arguments Found {A} a. Arguments Inherited {A}. Arguments Broken {A}.
Definition found {A} (o : option A) : lookup A := match o with Some a => Found a | None => Broken end.

Section Resolve.
  Context (c : nat).   (* the class of the object *)

  Definition store_of (k : nat) (b : basic) : option store :=
    match b with
    | BContainer id => Some (SContainer id)
    | BField fld _ => let? f := field_feature k fld in Some (SSlot f)
    | BCall m =>
        let? (k', b') := find_method c_basics (structs c) m in
        match b' with
        | BContainer id => Some (SContainer id)
        | BField fld _ => let? f := field_feature k' fld in Some (SSlot f)
        | BCall _ => None
        end
    end.

  (** NewBasicEObjectList (basiceobjectlist.go:26-42); newBasicEObjectMapList
      (basiceobjectmap.go:22-37) fixes the flags *)
  Definition list_of (m : string) : option list_args :=
    let? (k, g) := find_method c_getters (structs c) m in
    match g with
    | MLazy fld i =>
        let? (_, n) := find_method c_inits (structs c) i in
        let? f := field_feature k fld in
        match n with
        | NList _ id inv ct iv op px un => Some (LA f id inv ct iv op px un)
        | NMap id inv un => Some (LA f id inv true true (negb (inv =? -1)) false un)
        | _ => None
        end
    | _ => None
    end.

  (** EBasicInverseAdd and EBasicInverseRemove of the generated classes *)
  Definition add_of (id : Z) : lookup add_act :=
    match find_case c_add (structs c) id with
    | None => Inherited
    | Some (k, AList m) => found (let? l := list_of m in Some (AddTo (l_slot l)))
    | Some (k, AContainer b) => found (let? st := store_of k b in Some (AddContainer st))
    | Some (k, ASingle fld id' b) =>
        found (let? f := field_feature k fld in let? st := store_of k b in Some (AddSingle f id' st))
    end.
  Definition remove_of (id : Z) : lookup remove_act :=
    match find_case c_remove (structs c) id with
    | None => Inherited
    | Some (k, RmList m) => found (let? l := list_of m in Some (RemoveFrom (l_slot l)))
    | Some (k, RmBasic b) => found (let? st := store_of k b in Some (RemoveStore st))
    | Some (k, RmNothing) => Found RemoveNothing
    end.

  (** a setter called from ESetFromID or EUnsetFromID; [t] is the class asserted *)
  Definition setter_of (m : string) (t : nat) : option set_act :=
    let? (k, x) := find_method c_setters (structs c) m in
    match x with
    | TField fld _ => let? f := field_feature k fld in Some (SetField t f)
    | TContainer id opp b => let? st := store_of k b in Some (SetContainer t id opp st)
    | TContained fld rem add b =>
        let? f := field_feature k fld in let? st := store_of k b in Some (SetContained t f rem add st)
    | TPanic => None
    end.
  (** ESetFromID on references; the attribute cases are in [attr_set_of] *)
  Definition set_of (id : Z) : lookup set_act :=
    match find_case c_set (structs c) id with
    | None => Inherited
    | Some (_, SCallOrNil m t) => found (let? t' := assocS class_names t in setter_of m t')
    | Some (_, SList m) => found (let? l := list_of m in Some (SetList l))
    | Some (_, SCall _ _) => Broken
    end.
  Definition unset_of (id : Z) : lookup unset_act :=
    match find_case c_unset (structs c) id with
    | None => Inherited
    | Some (_, UCall m LNil) => found (let? a := setter_of m cEObject in Some (UnsetSet a))
    | Some (_, UCall _ _) => Broken
    | Some (_, UClear m) => found (let? l := list_of m in Some (UnsetClear l))
    | Some (_, UUnset m) =>
        found (let? (k, w) := find_method c_unsetters (structs c) m in
               match w with
               | WField fld _ => let? f := field_feature k fld in Some (UnsetField f)
               | WClear fld =>
                   (* the list of that field, if it exists; otherwise there is nothing to clear *)
                   let? (m', _) := find (fun p => match snd p with
                                                  | MLazy fld' _ => String.eqb fld' fld
                                                  | _ => false
                                                  end) (c_getters (class_at k)) in
                   let? l := list_of m' in Some (UnsetClear l)
               end)
    end.
  (** EGetFromID on references that are stored *)
  Definition get_of (id : Z) : lookup get_act :=
    match find_case c_get (structs c) id with
    | None => Inherited
    | Some (_, g) =>
        found (let? (k, x) := find_method c_getters (structs c) (get_method g) in
               match x with
               | MContainer id' => Some (GetContainer id')
               | MField fld | MResolved fld => let? f := field_feature k fld in Some (GetSlot f)
               | MLazy _ _ => let? l := list_of (get_method g) in Some (GetList l)
               | MLazyInt _ _ | MInit _ _ | MPanic => None
               end)
    end.
End Resolve.

(** ** The calls *)
Section Generated.
  Context (classOf : obj -> nat).
  Notation M := (ecore classOf).

  Definition static_count (o : obj) : Z := snd (c_static (class_at (classOf o))).

  Definition doStore (s : state) (x : obj) (v : option obj) (st : store) : option state :=
    match st with
    | SContainer id => basicSetContainer M s x v id
    | SSlot f => Some (setSlot s x f (to_list v))
    end.

  (** EBasicInverseRemove: a generated case, or abstracteobject.go:738-750, which returns the
      notifications unchanged for a static feature and panics for lack of dynamic properties *)
  Definition genBasicInverseRemove (s : state) (x other : obj) (id : Z) : option state :=
    match remove_of (classOf x) id with
    | Found (RemoveFrom f) =>
        let? (l, _) := removeWithNotification (slot s x f) other in Some (setSlot s x f l)
    | Found (RemoveStore st) => doStore s x None st
    | Found RemoveNothing => Some s
    | Inherited => if id - static_count x >=? 0 then None else Some s
    | Broken => None
    end.
  (** abstracteobject.go:661-667 (EInverseRemove) *)
  Definition genInverseRemove (s : state) (x other : obj) (id : Z) : option state :=
    if id >=? 0 then genBasicInverseRemove s x other id else basicSetContainer M s x None id.

  (** abstracteobject.go:854-877 (EBasicRemoveFromContainer, EBasicRemoveFromContainerFeature); an
      identifier of an attribute is not one of a reference *)
  Definition genRemoveFromContainer (s : state) (x : obj) : option state :=
    let id := containerFeatureID s x in
    match container s x with
    | None => Some s
    | Some c =>
        if id >=? 0 then
          match feature_at M x id with
          | None => Some s
          | Some g => match f_opp M g with
                      | None => Some s
                      | Some f => genInverseRemove s c x (f_id M f)
                      end
          end
        else genInverseRemove s c x (BASE - id)
    end.

  (** EBasicInverseAdd: a generated case, or abstracteobject.go:675-687 *)
  Definition genBasicInverseAdd (s : state) (x other : obj) (id : Z) : option state :=
    match add_of (classOf x) id with
    | Found (AddTo f) => let? (l, _) := doAdd (slot s x f) other in Some (setSlot s x f l)
    | Found (AddContainer st) =>
        let? s1 := genRemoveFromContainer s x in doStore s1 x (Some other) st
    | Found (AddSingle f id' st) =>
        let? s1 := when (hd_error (slot s x f)) s (fun y => genInverseRemove s y x id') in
        doStore s1 x (Some other) st
    | Inherited => if id - static_count x >=? 0 then None else Some s
    | Broken => None
    end.
  (** abstracteobject.go:650-658 (EInverseAdd) *)
  Definition genInverseAdd (s : state) (x other : obj) (id : Z) : option state :=
    if id >=? 0 then genBasicInverseAdd s x other id
    else let? s1 := genRemoveFromContainer s x in basicSetContainer M s1 x (Some other) id.

  (** basiceobjectlist.go:121-145 (inverseAdd, inverseRemove) *)
  Definition genListAdd (s : state) (o : obj) (l : list_args) (x : obj) : option state :=
    if l_inverse l then genInverseAdd s x o (if l_opposite l then l_inverseID l else BASE - l_id l)
    else Some s.
  Definition genListRemove (s : state) (o : obj) (l : list_args) (x : obj) : option state :=
    if l_inverse l then genInverseRemove s x o (if l_opposite l then l_inverseID l else BASE - l_id l)
    else Some s.
  Definition genListOp (s : state) (o : obj) (l : list_args) (p : list_op) : option state :=
    let? (st, removed, added) := list_effect (slot s o (l_slot l)) p in
    let s0 := setSlot s o (l_slot l) (final (slot s o (l_slot l)) st) in
    let? s1 := foldM (fun s x => genListRemove s o l x) removed s0 in
    foldM (fun s x => genListAdd s o l x) added s1.

  (** a new value given to ESet: an object or nil, or a list *)
  Inductive value := VObj (v : option obj) | VList (c : coll nat).

  (** [newValueOrNil, _ := newValue.(T)] *)
  Definition as_type (t : nat) (v : value) : option obj :=
    match v with
    | VObj (Some x) => if conforms (classOf x) t then Some x else None
    | VObj None | VList _ => None
    end.

  (** the setters of e*_impl.go *)
  Definition doSet (s : state) (o : obj) (a : set_act) (v : value) : option state :=
    match a with
    | SetField t f => Some (setSlot s o f (to_list (as_type t v)))
    | SetContainer t id opp st =>
        let v' := as_type t v in
        let oldContainer := container s o in
        if negb (some_eqb v' oldContainer)
           || (match v' with Some _ => negb (containerFeatureID s o =? id) | None => false end)
        then
          let? s1 := when oldContainer s (fun _ => genRemoveFromContainer s o) in
          let? s2 := when v' s1 (fun c => genInverseAdd s1 c o opp) in
          doStore s2 o v' st
        else Some s
    | SetContained t f rem add st =>
        let v' := as_type t v in
        let old := hd_error (slot s o f) in
        if some_eqb old v' then Some s
        else
          let? s1 := when old s (fun y => genInverseRemove s y o rem) in
          let? s2 := when v' s1 (fun x => genInverseAdd s1 x o add) in
          doStore s2 o v' st
    | SetList l =>
        match v with
        | VList c => let? s1 := genListOp s o l Clear in genListOp s1 o l (AddAll c)
        | VObj _ => None
        end
    end.

  (** Outcome of a call: [None] while it still runs after [fuel] nested calls, [Some None] when it
      panics, else the new state. *)

  (** ESetFromID: a generated case, or abstracteobject.go:401-417, which for a static feature calls
      ESet (391-398), which calls ESetFromID of the object again *)
  Fixpoint genSetFromID (fuel : nat) (s : state) (o : obj) (id : Z) (v : value) : option (option state) :=
    match fuel with
    | O => None
    | S n =>
        match set_of (classOf o) id with
        | Found a => Some (doSet s o a v)
        | Inherited =>
            match feature_at M o id with
            | None => Some None
            | Some f =>
                if id - static_count o <? 0 then
                  if existsb (Nat.eqb f) (features M o)
                  then if f_id M f >=? 0 then genSetFromID n s o (f_id M f) v else Some None
                  else Some None
                else Some None
            end
        | Broken => Some None
        end
    end.

  Definition doUnset (s : state) (o : obj) (a : unset_act) : option state :=
    match a with
    | UnsetSet a' => doSet s o a' (VObj None)
    | UnsetClear l => genListOp s o l Clear
    | UnsetField f => Some (setSlot s o f [])
    end.
  (** EUnsetFromID, with abstracteobject.go:540-566 *)
  Fixpoint genUnsetFromID (fuel : nat) (s : state) (o : obj) (id : Z) : option (option state) :=
    match fuel with
    | O => None
    | S n =>
        match unset_of (classOf o) id with
        | Found a => Some (doUnset s o a)
        | Inherited =>
            match feature_at M o id with
            | None => Some None
            | Some f =>
                if id - static_count o <? 0 then
                  if existsb (Nat.eqb f) (features M o)
                  then if f_id M f >=? 0 then genUnsetFromID n s o (f_id M f) else Some None
                  else Some None
                else Some None
            end
        | Broken => Some None
        end
    end.

  (** abstracteobject.go:218-227 (EFeatureID) *)
  Definition featureID_of (o : obj) (f : feature) : option Z :=
    if existsb (Nat.eqb f) (features M o) then
      if f_id M f >=? 0 then Some (f_id M f) else None
    else None.

  Definition genESet (fuel : nat) (s : state) (o : obj) (f : feature) (v : value) : option (option state) :=
    match featureID_of o f with Some id => genSetFromID fuel s o id v | None => Some None end.
  Definition genEUnset (fuel : nat) (s : state) (o : obj) (f : feature) : option (option state) :=
    match featureID_of o f with Some id => genUnsetFromID fuel s o id | None => Some None end.

  (** EGet of a stored reference: its value, [None] when the call panics *)
  Definition genEGet (s : state) (o : obj) (f : feature) : option (list obj) :=
    let? id := featureID_of o f in
    match get_of (classOf o) id with
    | Found (GetContainer id') =>
        if containerFeatureID s o =? id' then
          (* e.EContainer().(T) *)
          match container s o with Some c => Some [c] | None => None end
        else Some []
    | Found (GetSlot f') => Some (slot s o f')
    | Found (GetList l) => Some (slot s o (l_slot l))
    | _ => None
    end.

  (** a call on the list read by EGet *)
  Definition genEList (s : state) (o : obj) (f : feature) (p : list_op) : option state :=
    let? id := featureID_of o f in
    match get_of (classOf o) id with
    | Found (GetList l) => genListOp s o l p
    | _ => None
    end.

  (** resources: abstracteobject.go:139-171, eresource_impl.go:79-97 *)
  Definition genSetResource (s : state) (x : obj) (newResource : option resource) : option state :=
    let? s1 := match internalResource s x, newResource with
               | Some r, Some _ => contentsRemove s r x
               | _, _ => Some s
               end in
    let? s2 := match container s1 x with
               | Some c =>
                   let? f := eContainmentFeature M x c (containerFeatureID s1 x) in
                   if f_resolve M f then Some s1
                   else let? s' := genRemoveFromContainer s1 x in basicSetContainer M s' x None (-1)
               | None => Some s1
               end in
    Some (setResource s2 x newResource).
  Definition genContentsOp (s : state) (r : resource) (p : list_op) : option state :=
    let? (st, removed, added) := list_effect (contents s r) p in
    let s0 := contentsStages s r st in
    let? s1 := foldM (fun s x => genSetResource s x None) removed s0 in
    foldM (fun s x => genSetResource s x (Some r)) added s1.

  (** calls of a program, with enough fuel for one nested call *)
  Inductive call :=
  | CSet (o : obj) (f : feature) (v : value)
  | CUnset (o : obj) (f : feature)
  | CList (o : obj) (f : feature) (p : list_op)
  | CContents (r : resource) (p : list_op).

  Definition genStep (fuel : nat) (s : state) (p : call) : option (option state) :=
    match p with
    | CSet o f v => genESet fuel s o f v
    | CUnset o f => genEUnset fuel s o f
    | CList o f p => Some (genEList s o f p)
    | CContents r p => Some (genContentsOp s r p)
    end.
End Generated.

(** ** Attributes *)

(** values of attributes: literals, and other Go values (reflect.Type, user values) by number *)
Inductive avalue := AV (l : literal) | AOther (n : nat).

(** [newValue.(t)]: [None] is the panic *)
Definition assert_type (t : string) (v : avalue) : option avalue :=
  match v with
  | AV (LBool _) => if String.eqb t "bool" || String.eqb t "any" then Some v else None
  | AV (LInt _) => if String.eqb t "int" || String.eqb t "any" then Some v else None
  | AV (LStr _) => if String.eqb t "string" || String.eqb t "any" then Some v else None
  | AV LNil => if String.eqb t "any" then Some v else None
  | AOther _ => if String.eqb t "bool" || String.eqb t "int" || String.eqb t "string" then None else Some v
  end.

Definition literal_eqb (a b : literal) : bool :=
  match a, b with
  | LBool x, LBool y => Bool.eqb x y
  | LInt x, LInt y => x =? y
  | LStr x, LStr y => String.eqb x y
  | LNil, LNil => true
  | _, _ => false
  end.
(** Go's == between a field and a literal *)
Definition is_literal (v : avalue) (l : literal) : bool :=
  match v with AV l' => literal_eqb l' l | AOther _ => false end.

(** Methods of e*_ext.go in place of the generated ones, for attributes:
    - [XField]: reads or writes the field like the generated one, apart from caches
      (eattribute_ext.go:32-39 SetID, estructuralfeature_ext.go:64-68 SetDefaultValueLiteral,
      70-78 GetFeatureID and SetFeatureID);
    - [XAlias m]: calls m (eclassifier_ext.go:35-42);
    - [XFieldOr fld m]: the field, or what m reads if that is empty (eenumliteral_ext.go:23-28);
    - [XOther]: computed from other things. *)
Inductive ext_method := XField | XAlias (m : string) | XFieldOr (fld m : string) | XOther.
Definition ext_methods : list (nat * list (string * ext_method)) :=
  [(cEAttribute, [("SetID", XField)]);
   (cEClassifier, [("GetDefaultValue", XOther); ("GetInstanceTypeName", XAlias "GetInstanceClassName");
                   ("SetInstanceTypeName", XAlias "SetInstanceClassName"); ("initClassifierID", XOther)]);
   (cEDataType, [("GetDefaultValue", XOther)]);
   (cEEnum, [("GetDefaultValue", XOther)]);
   (cEEnumLiteral, [("GetLiteral", XFieldOr "literal" "GetName")]);
   (cEReference, [("IsContainer", XOther)]);
   (cEStructuralFeature, [("GetDefaultValue", XOther); ("SetDefaultValue", XOther);
                          ("SetDefaultValueLiteral", XField); ("GetFeatureID", XField); ("SetFeatureID", XField)]);
   (cETypedElement, [("IsMany", XOther); ("IsRequired", XOther)])]%string.
Definition ext_method_of (k : nat) (m : string) : option ext_method :=
  match find (fun p => Nat.eqb (fst p) k) ext_methods with
  | Some (_, l) => assocS l m
  | None => None
  end.

(** [Get k fld]: the field of struct k *)
Inductive attr_get :=
| AGField (f : feature)
| AGFieldOr (f g : feature).   (* f, or g when f is the empty string *)
(** the feature read by a getter that returns a field; a getter of another struct may be called by
    an overriding one *)
Fixpoint attr_getter (fuel : nat) (c : nat) (m : string) : option attr_get :=
  match fuel with
  | O => None
  | S n =>
      let? (k, g) := find_method c_getters (structs c) m in
      match ext_method_of k m with
      | Some (XAlias m') => attr_getter n c m'
      | Some (XFieldOr fld m') =>
          let? f := field_feature k fld in
          match attr_getter n c m' with Some (AGField g) => Some (AGFieldOr f g) | _ => None end
      | Some XOther => None
      | Some XField | None =>
          match g with
          | MField fld => let? f := field_feature k fld in Some (AGField f)
          | _ => None
          end
      end
  end.
Fixpoint attr_setter (fuel : nat) (c : nat) (m : string) : option feature :=
  match fuel with
  | O => None
  | S n =>
      let? (k, g) := find_method c_setters (structs c) m in
      match ext_method_of k m with
      | Some (XAlias m') => attr_setter n c m'
      | Some (XFieldOr _ _) | Some XOther => None
      | Some XField | None =>
          match g with TField fld _ => field_feature k fld | _ => None end
      end
  end.

Definition attr_get_of (c : nat) (id : Z) : option attr_get :=
  let? (_, g) := find_case c_get (structs c) id in attr_getter 3 c (get_method g).
Definition attr_set_of (c : nat) (id : Z) : option (feature * string) :=
  let? (_, x) := find_case c_set (structs c) id in
  match x with
  | SCall m t => let? f := attr_setter 3 c m in Some (f, t)
  | _ => None
  end.
Definition attr_unset_of (c : nat) (id : Z) : option (feature * literal) :=
  let? (_, x) := find_case c_unset (structs c) id in
  match x with
  | UCall m l => let? f := attr_setter 3 c m in Some (f, l)
  | _ => None
  end.
Definition attr_isSet_of (c : nat) (id : Z) : option (attr_get * literal) :=
  let? (k, x) := find_case c_isSet (structs c) id in
  match x with
  | IField fld l => let? f := field_feature k fld in Some (AGField f, l)
  | ICall m l => let? g := attr_getter 3 c m in Some (g, l)
  | IList _ => None
  end.

Fixpoint find_map {A B} (f : A -> option B) (l : list A) : option B :=
  match l with
  | [] => None
  | x :: l' => match f x with Some b => Some b | None => find_map f l' end
  end.
(** the fields of a new object: Initialize of the embedded struct, then its own (every Initialize
    starts with that call); other fields are Go's zero values, which no attribute field is left with *)
Definition initial_value (c : nat) (f : feature) : option literal :=
  find_map (fun k => find_map (fun p => match field_feature k (fst p) with
                                        | Some f' => if Nat.eqb f' f then Some (snd p) else None
                                        | None => None
                                        end) (c_initialize (class_at k))) (structs c).

(** The attribute fields of all objects.  A field is named by the feature it belongs to. *)
Definition attrs := obj -> feature -> avalue.
Definition setAttr (a : attrs) (o : obj) (f : feature) (v : avalue) : attrs := upd a o (upd (a o) f v).
(** every object as Initialize leaves it *)
Definition initial_attrs (classOf : obj -> nat) : attrs :=
  fun o f => match initial_value (classOf o) f with Some l => AV l | None => AV LNil end.

Section Attributes.
  Context (classOf : obj -> nat).

  Definition read_attr (a : attrs) (o : obj) (g : attr_get) : avalue :=
    match g with
    | AGField f => a o f
    | AGFieldOr f g => if is_literal (a o f) (LStr "") then a o g else a o f
    end.
  (** EGet, ESet, EUnset, EIsSet of an attribute kept in a field; [None] is a panic, or an attribute
      that is not kept in a field *)
  Definition attrGet (a : attrs) (o : obj) (f : feature) : option avalue :=
    let? id := featureID_of classOf o f in
    let? g := attr_get_of (classOf o) id in Some (read_attr a o g).
  Definition attrSet (a : attrs) (o : obj) (f : feature) (v : avalue) : option attrs :=
    let? id := featureID_of classOf o f in
    let? (fld, t) := attr_set_of (classOf o) id in
    let? v' := assert_type t v in Some (setAttr a o fld v').
  Definition attrUnset (a : attrs) (o : obj) (f : feature) : option attrs :=
    let? id := featureID_of classOf o f in
    let? (fld, l) := attr_unset_of (classOf o) id in Some (setAttr a o fld (AV l)).
  Definition attrIsSet (a : attrs) (o : obj) (f : feature) : option bool :=
    let? id := featureID_of classOf o f in
    let? (g, l) := attr_isSet_of (classOf o) id in Some (negb (is_literal (read_attr a o g) l)).
End Attributes.

(** ** Notifications *)
(** the feature number given to NewNotificationByFeatureID by basicSet*, or by EBasicSetContainer
    (abstracteobject.go:782-851) *)
Definition basic_id (c : nat) (b : basic) : option Z :=
  match b with
  | BContainer id | BField _ id => Some id
  | BCall m =>
      let? (_, b') := find_method c_basics (structs c) m in
      match b' with BContainer id | BField _ id => Some id | BCall _ => None end
  end.
(** the number in the notification of a setter; the overriding setters of e*_ext.go call the generated one *)
Fixpoint setter_id (fuel : nat) (c : nat) (m : string) : option Z :=
  match fuel with
  | O => None
  | S n =>
      let? (k, x) := find_method c_setters (structs c) m in
      match ext_method_of k m with
      | Some (XAlias m') => setter_id n c m'
      | Some (XFieldOr _ _) | Some XOther => None
      | Some XField | None =>
          match x with
          | TField _ id => Some id
          | TContainer _ _ b | TContained _ _ _ b => basic_id c b
          | TPanic => None
          end
      end
  end.
(** the number in the notifications of ESetFromID and EUnsetFromID *)
Definition set_announces (c : nat) (id : Z) : option Z :=
  let? (_, x) := find_case c_set (structs c) id in
  match x with
  | SCall m _ | SCallOrNil m _ => setter_id 3 c m
  | SList m => let? l := list_of c m in Some (l_id l)
  end.
Definition unset_announces (c : nat) (id : Z) : option Z :=
  let? (_, x) := find_case c_unset (structs c) id in
  match x with
  | UCall m _ => setter_id 3 c m
  | UClear m => let? l := list_of c m in Some (l_id l)
  | UUnset m =>
      let? (k, w) := find_method c_unsetters (structs c) m in
      match w with
      | WField _ id' => Some id'
      | WClear fld =>
          let? (m', _) := find (fun p => match snd p with MLazy fld' _ => String.eqb fld' fld | _ => false end)
                               (c_getters (class_at k)) in
          let? l := list_of c m' in Some (l_id l)
      end
  end.
