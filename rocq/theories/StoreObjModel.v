(** Model of ecore/estoreeobject_impl.go: an object that keeps its features in a store, the lists it hands out, and
    its container.

    Features are single-valued (persistent or transient) or lists (persistent); maps are in [StoreMapModel].  The
    lists a feature of many values gives out are objects of their own (handles), which the client may keep.  Stores
    keep to the contract of estore.go: per object and feature a value (nil: not set; no default values) or a
    sequence.  One object is followed: the elements' own SetCache, inverse references, notifications and the mutex
    are not modelled. *)
From Verif Require Import Base ListModel NotifyModel StoreListModel.

Inductive fkind := Single (isTransient : bool) | Many (isUnique : bool).

Section StoreObjModel.
  Context {A : Type} (eqb : A -> A -> bool) (nilv : A).
  (** the features of the object's class *)
  Context (kind : nat -> fkind).

  (** estorelist.go:19-32, the store being given by its number *)
  Record handle := Hd { hfeat : nat; hdata : option (list A); hstore : option nat; hcache : bool; hsize : Z }.
  (** a value of reflectiveeobject_impl.go:16 *)
  Inductive prop := PVal (v : A) | PList (h : nat).
  (** estoreeobject_impl.go:18-23, the lists made so far, and the stores' contents for this object *)
  Record world := Wd {
    wprops : nat -> option prop;             (* properties; all nil when the slice is nil *)
    wstore : option nat; wcache : bool;
    handles : list handle;
    values : nat -> nat -> option A;         (* store, feature *)
    lists : nat -> nat -> list A }.

  (** estoreeobject_impl.go:25-32, and SetEStore on the new object *)
  Definition NewObject (store : option nat) (cache : bool) (v : nat -> nat -> option A) (l : nat -> nat -> list A)
    : world := Wd (fun _ => None) store cache [] v l.

  (** the list of [StoreListModel] that a handle is, given the contents of its store *)
  Definition view (l : nat -> nat -> list A) (h : handle) : slist A :=
    SL (hdata h) (option_map (fun s => l s (hfeat h)) (hstore h)) (hcache h) (hsize h).
  (** the handle and the store's contents for such a list *)
  Definition handle_of (f : nat) (store : option nat) (s : slist A) : handle :=
    Hd f (data s) store (cache s) (size s).
  Definition written (l : nat -> nat -> list A) (h : handle) (s : slist A) : nat -> nat -> list A :=
    match hstore h, store s with
    | Some t, Some c => upd l t (upd (l t) (hfeat h) c)
    | _, _ => l
    end.
  Fixpoint replace {X} (l : list X) (i : nat) (x : X) : list X :=
    match l, i with
    | [], _ => []
    | _ :: l', O => x :: l'
    | y :: l', S i' => y :: replace l' i' x
    end.

  (** estoreeobject_impl.go:273-277 (createList), estorelist.go:34-56 *)
  Definition createList (w : world) (f : nat) : handle :=
    handle_of f (wstore w) (setCache (initialize (option_map (fun s => lists w s f) (wstore w))) (wcache w)).

  (** the value of a single-valued feature in the store *)
  Definition storeGet (w : world) (s f : nat) : option prop := option_map PVal (values w s f).

  (** estoreeobject_impl.go:191-228 (EDynamicGet) *)
  Definition wGet (w : world) (f : nat) : world * option prop :=
    match wprops w f with
    | Some p => (w, Some p)
    | None =>
        match kind f with
        | Single true => (w, None)
        | Single false =>
            match wstore w with
            | Some s =>
                let r := storeGet w s f in
                (if wcache w then Wd (upd (wprops w) f r) (wstore w) (wcache w) (handles w) (values w) (lists w)
                 else w, r)
            | None => (w, None)
            end
        | Many _ =>
            let h := length (handles w) in
            (Wd (upd (wprops w) f (Some (PList h))) (wstore w) (wcache w) (handles w ++ [createList w f])
                (values w) (lists w), Some (PList h))
        end
    end.

  (** estoreeobject_impl.go:230-252 (EDynamicSet), for single-valued features *)
  Definition wSet (w : world) (f : nat) (v : option A) : world :=
    let p := upd (wprops w) f (option_map PVal v) in
    match kind f, wstore w with
    | Single false, Some s =>
        Wd (if wcache w then p else wprops w) (wstore w) (wcache w) (handles w)
           (upd (values w) s (upd (values w s) f v)) (lists w)
    | _, _ => Wd p (wstore w) (wcache w) (handles w) (values w) (lists w)
    end.

  (** estoreeobject_impl.go:254-266 (EDynamicUnset); the store clears a list, sqlstore.go:1558-1561 *)
  Definition wUnset (w : world) (f : nat) : world :=
    let p := upd (wprops w) f None in
    match kind f, wstore w with
    | Single false, Some s =>
        Wd p (wstore w) (wcache w) (handles w) (upd (values w) s (upd (values w s) f None)) (lists w)
    | Many _, Some s =>
        Wd p (wstore w) (wcache w) (handles w) (values w) (upd (lists w) s (upd (lists w s) f []))
    | _, _ => Wd p (wstore w) (wcache w) (handles w) (values w) (lists w)
    end.

  (** estoreeobject_impl.go:177-189 (EDynamicIsSet) *)
  Definition wIsSet (w : world) (f : nat) : bool :=
    match wprops w f with
    | Some _ => true
    | None =>
        match wstore w with
        | Some s =>
            match kind f with
            | Single _ => match values w s f with Some _ => true | None => false end
            | Many _ => match lists w s f with [] => false | _ => true end
            end
        | None => false
        end
    end.

  (** whether the handle [i] is one of the object's properties *)
  Definition isProperty (w : world) (i : nat) (h : handle) : bool :=
    match wprops w (hfeat h) with Some (PList j) => (i =? j)%nat | _ => false end.
  Fixpoint mapi {X Y} (g : nat -> X -> Y) (i : nat) (l : list X) : list Y :=
    match l with [] => [] | x :: l' => g i x :: mapi g (S i) l' end.

  (** estoreeobject_impl.go:101-117 (SetCache) *)
  Definition wSetCache (w : world) (c : bool) : world :=
    if Bool.eqb (wcache w) c then w
    else Wd (match wstore w with Some _ => fun _ => None | None => wprops w end) (wstore w) c
            (mapi (fun i h => if isProperty w i h
                              then handle_of (hfeat h) (hstore h) (setCache (view (lists w) h) c) else h)
                  0 (handles w))
            (values w) (lists w).

  Definition same_store (a b : option nat) : bool :=
    match a, b with Some a, Some b => (a =? b)%nat | None, None => true | _, _ => false end.
  (** estorelist.go:120-137 (SetEStore) *)
  Definition hSetEStore (w : world) (h : handle) (s : nat) : handle :=
    if same_store (hstore h) (Some s) then h
    else handle_of (hfeat h) (Some s) (setEStore (view (lists w) h) (Some (lists w s (hfeat h)))).

  (** estoreeobject_impl.go:67-99 (SetEStore), without the container: see below *)
  Definition wSetEStore (w : world) (new : option nat) : world :=
    if same_store (wstore w) new then w
    else
      match new with
      | None =>
          let p := fun f =>
            match kind f, wstore w with
            | Single false, Some s => if wcache w then wprops w f else storeGet w s f
            | _, _ => wprops w f
            end in
          Wd p None (wcache w) (handles w) (values w) (lists w)
      | Some s =>
          Wd (if wcache w then wprops w else fun _ => None) (Some s) (wcache w)
             (mapi (fun i h => if isProperty w i h then hSetEStore w h s else h) 0 (handles w))
             (values w) (lists w)
      end.

  (** a call on a list that the client has *)
  Definition onList (w : world) (i : nat) (o : nop A) : option (world * res A) :=
    let? h := nth_error (handles w) i in
    match kind (hfeat h) with
    | Many unique =>
        match sstep eqb nilv unique (view (lists w) h) (N o) with
        | Ret (s, _, _) r =>
            Some (Wd (wprops w) (wstore w) (wcache w) (replace (handles w) i (handle_of (hfeat h) (hstore h) s))
                     (values w) (written (lists w) h s), r)
        | Panic => None
        end
    | Single _ => None
    end.

  Inductive wop :=
  | WGet (f : nat) | WSet (f : nat) (v : option A) | WUnset (f : nat) | WIsSet (f : nat)
  | WSetCache (c : bool) | WSetEStore (s : option nat)
  | WOn (i : nat) (o : nop A)      (* a call on the list number [i] *)
  | WVia (f : nat) (o : nop A)     (* the feature is read, and the call made on the list returned *).
  Inductive wres := WUnit | WVal (v : option A) | WList (h : nat) | WBool (b : bool) | WRes (r : res A).
  Definition wresult (p : option prop) : wres :=
    match p with Some (PVal v) => WVal (Some v) | Some (PList h) => WList h | None => WVal None end.

  (** [None]: panic *)
  Definition wstep (w : world) (o : wop) : option (world * wres) :=
    match o with
    | WGet f => let '(w', p) := wGet w f in Some (w', wresult p)
    | WSet f v => Some (wSet w f v, WUnit)
    | WUnset f => Some (wUnset w f, WUnit)
    | WIsSet f => Some (w, WBool (wIsSet w f))
    | WSetCache c => Some (wSetCache w c, WUnit)
    | WSetEStore s => Some (wSetEStore w s, WUnit)
    | WOn i o => let? (w', r) := onList w i o in Some (w', WRes r)
    | WVia f o =>
        match wGet w f with
        | (w', Some (PList i)) => let? (w'', r) := onList w' i o in Some (w'', WRes r)
        | _ => None
        end
    end.
  (** the results of a history, and the state it ends in, if it does not panic *)
  Fixpoint wrun (w : world) (h : list wop) : list wres * option world :=
    match h with
    | [] => ([], Some w)
    | o :: h' => match wstep w o with
                 | None => ([], None)
                 | Some (w', r) => let '(rs, fin) := wrun w' h' in (r :: rs, fin)
                 end
    end.
End StoreObjModel.
Arguments handle : clear implicits.
Arguments prop : clear implicits.
Arguments world : clear implicits.
Arguments wop : clear implicits.
Arguments wres : clear implicits.

(** *** The container

    An object [x] among others; objects have classes, features are numbered over all classes. *)
Section Container.
  Context (classOf : nat -> nat).
  (** EAllStructuralFeatures of a class, and the opposite of a feature; the type assertion of line 170 fails for
      features that are not references, which is not modelled *)
  Context (allFeatures : nat -> list nat) (opposite : nat -> option nat).

  (** eclass_ext.go:130-136 *)
  Definition getFeature (c : nat) (id : Z) : option nat :=
    if id <? 0 then None else nth_error (allFeatures c) (Z.to_nat id).
  Fixpoint position (l : list nat) (f : nat) : option nat :=
    match l with [] => None | g :: l' => if (g =? f)%nat then Some O else option_map S (position l' f) end.
  (** eclass_ext.go:158-169; the feature's own id, from which the search starts, is at most its place *)
  Definition getFeatureID (c : nat) (f : nat) : Z :=
    match position (allFeatures c) f with Some n => Z.of_nat n | None => -1 end.
  (** eobject.go: EOPPOSITE_FEATURE_BASE *)
  Definition BASE : Z := -1.

  (** the container field: estoreeobject_impl.go:16 *)
  Inductive incontainer := Uninitialized | In (c : option nat).
  (** what a store says about the container of [x] *)
  Definition stored_container := (option nat * option nat)%type.
  Record cobject := CO {
    ccontainer : incontainer; cfeatureID : Z;
    cstore : option nat;
    instore : nat -> stored_container }.
  Context (x : nat).

  (** estoreeobject_impl.go:161-175 (setContainerInStore); [None]: panic of the type assertion on line 170 when the
      object's class has no such feature *)
  Definition setContainerInStore (o : cobject) : option cobject :=
    match cstore o, ccontainer o with
    | Some s, In c =>
        let? f := match c with
                  | None => Some None
                  | Some c => if cfeatureID o <=? BASE then Some (getFeature (classOf c) (BASE - cfeatureID o))
                              else let? g := getFeature (classOf x) (cfeatureID o) in Some (opposite g)
                  end in
        Some (CO (ccontainer o) (cfeatureID o) (cstore o) (upd (instore o) s (c, f)))
    | _, _ => Some o
    end.

  (** estoreeobject_impl.go:125-128 (ESetInternalContainer) *)
  Definition cSet (o : cobject) (c : option nat) (id : Z) : option cobject :=
    setContainerInStore (CO (In c) id (cstore o) (instore o)).

  (** estoreeobject_impl.go:140-159 (initializeContainerFromStore) *)
  Definition initializeContainer (o : cobject) : cobject :=
    match ccontainer o with
    | In _ => o
    | Uninitialized =>
        let '(c, id) :=
          match cstore o with
          | Some s => match instore o s with
                      | (Some c, Some f) =>
                          (Some c, match opposite f with
                                   | Some g => getFeatureID (classOf x) g
                                   | None => BASE - getFeatureID (classOf c) f
                                   end)
                      | _ => (None, -1)
                      end
          | None => (None, -1)
          end in
        CO (In c) id (cstore o) (instore o)
    end.
  (** estoreeobject_impl.go:130-138 (EInternalContainer, EInternalContainerFeatureID) *)
  Definition cGet (o : cobject) : cobject * (option nat * Z) :=
    let o' := initializeContainer o in
    (o', (match ccontainer o' with In c => c | Uninitialized => None end, cfeatureID o')).

  (** estoreeobject_impl.go:67-83 (SetEStore) *)
  Definition cSetEStore (o : cobject) (new : option nat) : option cobject :=
    if same_store (cstore o) new then Some o
    else let o' := CO (ccontainer o) (cfeatureID o) new (instore o) in
         match new with None => Some o' | Some _ => setContainerInStore o' end.

  (** estoreeobject_impl.go:25-37: a new object *)
  Definition NewContained (s : option nat) (st : nat -> stored_container) : cobject := CO Uninitialized (-1) s st.
End Container.
