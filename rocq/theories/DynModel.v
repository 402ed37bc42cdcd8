(** Model of the attributes of dynamic and reflective objects: abstracteobject.go (EGet, ESet, EIsSet, EUnset on features
    that are no references), dynamiceobject_impl.go, reflectiveeobject_impl.go, basicedatatypelist.go.

    References are in GraphModel.  What editing a list does to its elements is in ListModel and NotifyModel: here an edit
    is any function of the elements and gives one notification.  Default values are parameters (MetaModel has them).  A class
    is the list of all its features; features know a number (GetFeatureID), which EClassExt sets when it computes
    that list (eclass_ext.go:381-404).  An object without class has the class EObject, which has no features. *)
From Verif Require Import Base.

Section Dyn.
  Context {D : Type}.
  (** an interface value: nil, a value of a data type, or a list by its address *)
  Inductive value := Nil | Data (d : D) | Lst (l : nat).
  Inductive event := SET | UNSET | EDIT.
  Record note := mkN { nkind : event; source : nat; nfeature : option nat; nold : value; nnew : value }.
  (** [reflective]: ReflectiveEObjectImpl, else DynamicEObjectImpl; [properties]: None is the nil slice;
      [observed]: ENotificationRequired *)
  Record object := mkO { reflective : bool; class : nat; properties : option (list value); observed : bool }.
  (** basicedatatypelist.go:12-17 *)
  Record elist := mkL { owner : nat; number : nat; elements : list D }.
  Record world := mkW {
    features : nat -> list nat;          (* GetEAllStructuralFeatures *)
    fid : nat -> nat;                    (* GetFeatureID of a feature *)
    objects : nat -> object;
    lists : nat -> elist;
    fresh : nat;                         (* addresses of lists from here on are free *)
    sent : list note }.

  Context (many : nat -> bool) (default : nat -> option D).

  Definition upd {A} (g : nat -> A) (k : nat) (a : A) : nat -> A := fun x => if Nat.eqb x k then a else g x.
  Definition with_object o x w := mkW (features w) (fid w) (upd (objects w) o x) (lists w) (fresh w) (sent w).
  Definition with_properties l x := mkO (reflective x) (class x) (Some l) (observed x).
  Definition send n w := mkW (features w) (fid w) (objects w) (lists w) (fresh w) (sent w ++ [n]).

  (** eclass_ext.go:158-169 *)
  Fixpoint search (f : nat) (l : list nat) (i : nat) : option nat :=
    match l with [] => None | g :: l' => if Nat.eqb g f then Some i else search f l' (i + 1) end.
  Definition getFeatureID (w : world) (c f : nat) : option nat := search f (skipn (fid w f) (features w c)) (fid w f).
  (** dynamiceobject_impl.go:76-78 and abstracteobject.go:218-227 *)
  Definition eFeatureID (w : world) (o f : nat) : option nat :=
    let x := objects w o in
    if reflective x then if existsb (Nat.eqb f) (features w (class x)) then Some (fid w f) else None
    else getFeatureID w (class x) f.

  (** reflectiveeobject_impl.go:63-68; a dynamic object always has its slice *)
  Definition getProperties (w : world) (o : nat) : list value :=
    match properties (objects w o) with
    | Some l => l
    | None => repeat Nil (length (features w (class (objects w o))))
    end.
  Definition allocate (w : world) (o : nat) : world := with_object o (with_properties (getProperties w o) (objects w o)) w.
  (** dynamiceobject_impl.go:60-74, reflectiveeobject_impl.go:47-61; None: index out of range *)
  Definition eDynamicGet (w : world) (o i : nat) : option value := nth_error (getProperties w o) i.
  Fixpoint put (l : list value) (i : nat) (v : value) : list value :=
    match l, i with [], _ => [] | _ :: l', 0%nat => v :: l' | x :: l', Datatypes.S i' => x :: put l' i' v end.
  Definition eDynamicSet (w : world) (o i : nat) (v : value) : option world :=
    match nth_error (getProperties w o) i with
    | None => None
    | Some _ => Some (with_object o (with_properties (put (getProperties w o) i v) (objects w o)) w)
    end.
  Definition eDynamicUnset (w : world) (o i : nat) : option world := eDynamicSet w o i Nil.
  Definition eDynamicIsSet (w : world) (o i : nat) : option bool :=
    option_map (fun v => match v with Nil => false | _ => true end) (eDynamicGet w o i).

  (** abstracteobject.go:357-360 *)
  Definition createList (o f : nat) (w : world) : world * nat :=
    (mkW (features w) (fid w) (objects w) (upd (lists w) (fresh w) (mkL o (fid w f) [])) (fresh w + 1) (sent w), fresh w).
  (** ENotify with NewNotificationByFeature *)
  Definition notify (o : nat) (k : event) (f : option nat) (old new : value) (w : world) : world :=
    if observed (objects w o) then send (mkN k o f old new) w else w.

  (** the feature at the number (GetEStructuralFeature): abstracteobject.go:259-265, 402-407, 514-518, 549-553 *)
  Definition at_number (w : world) (o f : nat) : option (nat * nat) :=
    match eFeatureID w o f with
    | None => None
    | Some i => match nth_error (features w (class (objects w o))) i with Some g => Some (g, i) | None => None end
    end.
  (** abstracteobject.go:241-301 *)
  Definition eGet (w : world) (o f : nat) : option (world * value) :=
    match at_number w o f with
    | None => None
    | Some (g, i) =>
        match eDynamicGet w o i with
        | None => None
        | Some Nil =>
            if many g then
              let '(w', l) := createList o g w in
              match eDynamicSet w' o i (Lst l) with Some w'' => Some (w'', Lst l) | None => None end
            else Some (allocate w o, match default g with Some d => Data d | None => Nil end)
        | Some v => Some (allocate w o, v)
        end
    end.
  (** abstracteobject.go:391-420, 489-499 *)
  Definition eSet (w : world) (o f : nat) (v : value) : option world :=
    match at_number w o f with
    | None => None
    | Some (g, i) =>
        match eDynamicGet w o i, eDynamicSet w o i v with
        | Some old, Some w' => Some (notify o SET (Some g) old v w')
        | _, _ => None
        end
    end.
  (** abstracteobject.go:503-537 *)
  Definition eIsSet (w : world) (o f : nat) : option (world * bool) :=
    match at_number w o f with
    | None => None
    | Some (g, i) => match eDynamicIsSet w o i with Some b => Some (allocate w o, b) | None => None end
    end.
  (** abstracteobject.go:539-568, 622-629 *)
  Definition eUnset (w : world) (o f : nat) : option world :=
    match at_number w o f with
    | None => None
    | Some (g, i) =>
        match eDynamicGet w o i, eDynamicUnset w o i with
        | Some old, Some w' => Some (notify o UNSET (Some g) old Nil w')
        | _, _ => None
        end
    end.
  (** a call that edits a list: the notification names the feature at the number of the list in the class of its
      owner (basicedatatypelist.go:19-35, basicenotifyinglist.go) *)
  Definition edit (w : world) (l : nat) (g : list D -> list D) : world :=
    let e := lists w l in
    notify (owner e) EDIT (nth_error (features w (class (objects w (owner e)))) (number e)) (Lst l) (Lst l)
      (mkW (features w) (fid w) (objects w) (upd (lists w) l (mkL (owner e) (number e) (g (elements e)))) (fresh w) (sent w)).

  (** dynamiceobject_impl.go:41-46, 84-89 and reflectiveeobject_impl.go:35-37 *)
  Definition resize (n : nat) (l : list value) : list value := firstn n l ++ repeat Nil (n - length l).
  Definition setEClass (w : world) (o c : nat) : world :=
    let x := objects w o in
    if reflective x then with_object o (mkO true c (properties x) (observed x)) w
    else if Nat.eqb c (class x) then w
    else with_object o (mkO false c (Some (resize (length (features w c)) (getProperties w o))) (observed x)) w.
  (** a new object that is given its class: dynamiceobject_impl.go:20-31, reflectiveeobject_impl.go:20-25 *)
  Definition create (w : world) (o c : nat) (r obs : bool) : world :=
    with_object o (mkO r c (if r then None else Some (resize (length (features w c)) [])) obs) w.
  (** the metamodel is edited: classes have other features, and features other numbers *)
  Definition redefine (w : world) (fs : nat -> list nat) (ids : nat -> nat) : world :=
    mkW fs ids (objects w) (lists w) (fresh w) (sent w).
End Dyn.
Arguments value : clear implicits.
Arguments note : clear implicits.
Arguments object : clear implicits.
Arguments elist : clear implicits.
Arguments world : clear implicits.
