(** Model of ecore/eclass_ext.go: the derived views of classes and their caches.

    Classes, features and operations are numbers.  The lists of super types, features and operations of a class are
    the unique notifying lists of [NotifyModel]; the class listens to its own notifications.  The mutex of a class
    is held while its super types (when computing) or sub classes (when invalidating) are visited, so visiting a
    class twice on one path blocks forever: [fuel] bounds the length of such a path and running out of it is
    [None].  Concurrency is not modelled here. *)
From Verif Require Import Base ListModel NotifyModel.

(** the attributes of features that the views depend on (eattribute_ext.go, ereference_ext.go:27-30) *)
Record finfo := mkInfo {
  isRef : bool; isContainment : bool; isContainer : bool; isDerived : bool; isID : bool; fname : nat }.

(** what the user edits: eclass_impl.go:214-228 (eStructuralFeatures, eSuperTypes), eOperations, and EDeliver *)
Record graph := mkGraph {
  supers : nat -> list nat; feats : nat -> list nat; opers : nat -> list nat; info : nat -> finfo;
  deliver : nat -> bool }.

(** the fields of EClassImpl/EClassExt that hold computed views (eclass_ext.go:15-22, eclass_impl.go) *)
Inductive kind :=
| KSup | KAttr | KRef | KFeat | KOps          (* eAllSuperTypes, eAllAttributes, eAllReferences, eAllStructuralFeatures, eAllOperations *)
| KCont | KCross                              (* eAllContainments, eAllCrossReferences *)
| KOwnAttr | KOwnRef | KOwnCont | KOwnCross   (* eAttributes, eReferences, eContainmentFeatures, eCrossReferenceFeatures *)
| KId.                                        (* eIDAttribute: [] is nil *)
Definition kind_eqb (a b : kind) : bool :=
  match a, b with
  | KSup, KSup | KAttr, KAttr | KRef, KRef | KFeat, KFeat | KOps, KOps | KCont, KCont | KCross, KCross
  | KOwnAttr, KOwnAttr | KOwnRef, KOwnRef | KOwnCont, KOwnCont | KOwnCross, KOwnCross | KId, KId => true
  | _, _ => false
  end.

Record cstate := mkState {
  gr : graph;
  subs : nat -> list nat;                             (* subClasses *)
  cache : kind -> nat -> option (list nat);
  nameMap : nat -> option (nat -> option nat);        (* nameToFeatureMap *)
  overMap : nat -> option (nat -> option nat);        (* operationToOverrideMap *)
  sid : bool -> nat -> Z }.                           (* true: featureID of a feature; false: operationID of an operation *)

Definition upd {X} (f : nat -> X) (c : nat) (x : X) : nat -> X := fun d => if Nat.eqb d c then x else f d.
Definition setCache (s : cstate) (k : kind) (c : nat) (v : option (list nat)) : cstate :=
  mkState (gr s) (subs s) (fun k' => if kind_eqb k' k then upd (cache s k') c v else cache s k') (nameMap s) (overMap s) (sid s).
Definition setNames (s : cstate) (c : nat) (v : option (nat -> option nat)) : cstate :=
  mkState (gr s) (subs s) (cache s) (upd (nameMap s) c v) (overMap s) (sid s).
Definition setOver (s : cstate) (c : nat) (v : option (nat -> option nat)) : cstate :=
  mkState (gr s) (subs s) (cache s) (nameMap s) (upd (overMap s) c v) (sid s).
Definition setSids (s : cstate) (b : bool) (f : nat -> Z) : cstate :=
  mkState (gr s) (subs s) (cache s) (nameMap s) (overMap s) (fun b' => if Bool.eqb b' b then f else sid s b').
Definition setSubs (s : cstate) (c : nat) (l : list nat) : cstate :=
  mkState (gr s) (upd (subs s) c l) (cache s) (nameMap s) (overMap s) (sid s).
Definition setGraph (s : cstate) (g : graph) : cstate :=
  mkState g (subs s) (cache s) (nameMap s) (overMap s) (sid s).

(** *** Computing views *)

(** what a class adds itself: eclass_ext.go:283-291, 310-316, 368-375, 395-400; nothing for super types *)
Definition own (k : kind) (g : graph) (c : nat) : list nat :=
  match k with
  | KAttr => filter (fun f => negb (isRef (info g f))) (feats g c)
  | KRef => filter (fun f => isRef (info g f)) (feats g c)
  | KFeat => feats g c
  | KOps => opers g c
  | _ => []
  end.

(** SetFeatureID / SetOperationID, eclass_ext.go:367-375, 394-400 *)
Fixpoint assignIds (f : nat -> Z) (i : Z) (l : list nat) : nat -> Z :=
  match l with [] => f | x :: l' => assignIds (upd f x i) (i + 1) l' end.

(** before visiting the super types: eclass_ext.go:359, 384-386 *)
Definition pre (k : kind) (s : cstate) (c : nat) : cstate :=
  match k with
  | KFeat => setNames (setCache (setCache s KOwnCross c None) KOwnCont c None) c None
  | KOps => setOver s c None
  | _ => s
  end.
(** after it: eclass_ext.go:283-295, 310-319, 367-376, 394-401, 416 *)
Definition post (k : kind) (s : cstate) (c : nat) (l : list nat) : cstate :=
  let mine := own k (gr s) c in
  let all := l ++ mine in
  match k with
  | KAttr => setCache (setCache (setCache s KId c (Some (match find (fun f => isID (info (gr s) f)) all with Some f => [f] | None => [] end)))
                                KOwnAttr c (Some mine)) KAttr c (Some all)
  | KRef => setCache (setCache s KOwnRef c (Some mine)) KRef c (Some all)
  | KFeat => setCache (setSids s true (assignIds (sid s true) (zlen l) mine)) KFeat c (Some all)
  | KOps => setCache (setSids s false (assignIds (sid s false) (zlen l) mine)) KOps c (Some all)
  | k => setCache s k c (Some all)
  end.

(** the loop over the super types; for super types themselves eclass_ext.go:410-415 appends the class after
    its own super types *)
Fixpoint gather (get : cstate -> nat -> option (cstate * list nat)) (k : kind) (l : list nat) (s : cstate)
  : option (cstate * list nat) :=
  match l with
  | [] => Some (s, [])
  | d :: l' =>
      let? (s1, ld) := get s d in
      let? (s2, ls) := gather get k l' s1 in
      Some (s2, ld ++ (match k with KSup => [d] | _ => [] end) ++ ls)
  end.

(** eclass_ext.go:265-298 (initEAllAttributes), 300-322 (initEAllReferences), 356-379 (initEAllOperations),
    381-404 (initEAllStructuralFeatures), 406-419 (initEAllSuperTypes), and the getters GetEAll... *)
Fixpoint getAll (fuel : nat) (k : kind) (s : cstate) (c : nat) : option (cstate * list nat) :=
  match fuel with
  | O => None
  | S n =>
      match cache s k c with
      | Some l => Some (s, l)
      | None =>
          let s1 := pre k s c in
          let? (s2, l) := gather (getAll n k) k (supers (gr s1) c) s1 in
          Some (post k s2 c l, l ++ own k (gr s2) c)
      end
  end.

(** eclass_ext.go:324-338 *)
Definition getAllContainments (fuel : nat) (s : cstate) (c : nat) : option (cstate * list nat) :=
  let? (s1, refs) := getAll fuel KRef s c in
  match cache s1 KCont c with
  | Some l => Some (s1, l)
  | None => let l := filter (fun f => isContainment (info (gr s1) f)) refs in Some (setCache s1 KCont c (Some l), l)
  end.
(** eclass_ext.go:340-354 *)
Definition getAllCrossReferences (fuel : nat) (s : cstate) (c : nat) : option (cstate * list nat) :=
  let? (s1, refs) := getAll fuel KRef s c in
  match cache s1 KCross c with
  | Some l => Some (s1, l)
  | None =>
      let l := filter (fun f => negb (isContainment (info (gr s1) f)) && negb (isContainer (info (gr s1) f))) refs in
      Some (setCache s1 KCross c (Some l), l)
  end.
(** eclass_ext.go:222-228, 421-423: the getters of eAttributes, eReferences, eIDAttribute *)
Definition getWith (fuel : nat) (k k' : kind) (s : cstate) (c : nat) : option (cstate * list nat) :=
  let? (s1, _) := getAll fuel k s c in
  Some (s1, match cache s1 k' c with Some l => l | None => [] end).

(** eclass_ext.go:238-263; [k] is the view read afterwards *)
Definition getSubSet (fuel : nat) (k : kind) (s : cstate) (c : nat) : option (cstate * list nat) :=
  let? (s1, _) := getAll fuel KFeat s c in
  let s2 :=
    match cache s1 KOwnCont c with
    | Some _ => s1
    | None =>
        let i := info (gr s1) in
        let containments := filter (fun f => isRef (i f) && isContainment (i f) && negb (isDerived (i f))) (feats (gr s1) c) in
        let crossReferences := filter (fun f => isRef (i f) && negb (isContainment (i f)) && negb (isContainer (i f)) && negb (isDerived (i f))) (feats (gr s1) c) in
        setCache (setCache s1 KOwnCont c (Some containments)) KOwnCross c (Some crossReferences)
    end in
  Some (s2, match cache s2 k c with Some l => l | None => [] end).

(** eclass_ext.go:138-156 *)
Definition mapPut (m : nat -> option nat) (k v : nat) : nat -> option nat := upd m k (Some v).
Definition getFromName (fuel : nat) (s : cstate) (c : nat) (n : nat) : option (cstate * option nat) :=
  let? (s1, l) := getAll fuel KFeat s c in
  match nameMap s1 c with
  | Some m => Some (s1, m n)
  | None => let m := fold_left (fun m f => mapPut m (fname (info (gr s1) f)) f) l (fun _ => None) in
            Some (setNames s1 c (Some m), m n)
  end.

(** eclass_ext.go:158-169, 183-194: scan from the stored id *)
Fixpoint scanId (l : list nat) (i : Z) (from : Z) (x : nat) : Z :=
  match l with
  | [] => -1
  | y :: l' => if (from <=? i) && Nat.eqb y x then i else scanId l' (i + 1) from x
  end.
Definition getID (fuel : nat) (k : kind) (b : bool) (s : cstate) (c x : nat) : option (cstate * Z) :=
  let? (s1, l) := getAll fuel k s c in
  Some (s1, if sid s1 b x =? -1 then -1 else scanId l 0 (sid s1 b x) x).
(** eclass_ext.go:130-136, 175-181 *)
Definition getByID (fuel : nat) (k : kind) (s : cstate) (c : nat) (i : Z) : option (cstate * option nat) :=
  let? (s1, l) := getAll fuel k s c in
  Some (s1, if (i >=? 0) && (i <? zlen l) then zget l i else None).

Section ClassModel.
  (** IsOverrideOf of operations (EOperationExt), an arbitrary relation *)
  Variable overrides : nat -> nat -> bool.

  (** eclass_ext.go:203-220 *)
  Fixpoint buildOver (l : list nat) (m : nat -> option nat) : nat -> option nat :=
    match l with
    | [] => m
    | oi :: rest => buildOver rest (fold_left (fun m oj => if overrides oj oi then mapPut m oi oj else m) (rev rest) m)
    end.
  Definition getOverride (fuel : nat) (s : cstate) (c : nat) (o : nat) : option (cstate * option nat) :=
    let? (s1, l) := getAll fuel KOps s c in
    match overMap s1 c with
    | Some m => Some (s1, m o)
    | None => let m := buildOver l (fun _ => None) in Some (setOver s1 c (Some m), m o)
    end.

  (** *** Queries *)
  Inductive query :=
  | QAll (k : kind) (c : nat)              (* GetEAllSuperTypes/Attributes/References/StructuralFeatures/Operations *)
  | QContainments (c : nat) | QCross (c : nat)
  | QAttributes (c : nat) | QReferences (c : nat) | QID (c : nat)
  | QOwnContainments (c : nat) | QOwnCross (c : nat)
  | QName (c n : nat) | QOverride (c o : nat)
  | QFeatureID (c f : nat) | QFeature (c : nat) (i : Z) | QOperationID (c o : nat) | QOperation (c : nat) (i : Z)
  | QIsSuperTypeOf (a b : nat).
  Inductive answer := AList (l : list nat) | AOpt (o : option nat) | AInt (z : Z) | ABool (b : bool).

  Definition ask (fuel : nat) (s : cstate) (q : query) : option (cstate * answer) :=
    let lst r := let? (s', l) := r in Some (s', AList l) in
    let opt r := let? (s', o) := r in Some (s', AOpt o) in
    let int r := let? (s', z) := r in Some (s', AInt z) in
    match q with
    | QAll k c => lst (getAll fuel k s c)
    | QContainments c => lst (getAllContainments fuel s c)
    | QCross c => lst (getAllCrossReferences fuel s c)
    | QAttributes c => lst (getWith fuel KAttr KOwnAttr s c)
    | QReferences c => lst (getWith fuel KRef KOwnRef s c)
    | QID c => lst (getWith fuel KAttr KId s c)
    | QOwnContainments c => lst (getSubSet fuel KOwnCont s c)
    | QOwnCross c => lst (getSubSet fuel KOwnCross s c)
    | QName c n => opt (getFromName fuel s c n)
    | QOverride c o => opt (getOverride fuel s c o)
    | QFeatureID c f => int (getID fuel KFeat true s c f)
    | QFeature c i => opt (getByID fuel KFeat s c i)
    | QOperationID c o => int (getID fuel KOps false s c o)
    | QOperation c i => opt (getByID fuel KOps s c i)
    (* eclass_ext.go:122-124 *)
    | QIsSuperTypeOf a b =>
        if Nat.eqb b a then Some (s, ABool true)
        else let? (s', l) := getAll fuel KSup s b in Some (s', ABool (existsb (Nat.eqb a) l))
    end.

  (** *** Modifications *)

  (** the feature a class notification is about: ECLASS__... *)
  Inductive modified := MFeatures | MAttributes | MOperations | MSuperTypes.
  (** eclass_ext.go:439-463.  The case ECLASS__EREFERENCES is never used by the code. *)
  Definition clears (m : modified) : list kind :=
    match m with
    | MFeatures => [KAttr; KFeat; KRef; KCont]
    | MAttributes => [KAttr; KFeat; KCont]
    | MOperations => [KOps; KCont]
    | MSuperTypes => [KSup; KAttr; KOps; KFeat; KRef; KCont]
    end.
  (** eclass_ext.go:437-468 *)
  Fixpoint setModified (fuel : nat) (m : modified) (s : cstate) (c : nat) : option cstate :=
    match fuel with
    | O => None
    | S n =>
        let s1 := fold_left (fun s k => setCache s k c None) (clears m) s in
        fold_left (fun os d => let? s' := os in setModified n m s' d) (subs s c) (Some s1)
    end.

  (** eclass_ext.go:48-54: drop the first occurrence *)
  Fixpoint removeFirst (x : nat) (l : list nat) : list nat :=
    match l with [] => [] | y :: l' => if Nat.eqb y x then l' else y :: removeFirst x l' end.
  Definition addSub (c : nat) (s : cstate) (d : nat) : cstate := setSubs s d (subs s d ++ [c]).
  Definition removeSub (c : nat) (s : cstate) (d : nat) : cstate := setSubs s d (removeFirst c (subs s d)).
  Definition objs (p : payload nat) : list nat := match p with PObj x => [x] | PObjs l => l | _ => [] end.

  (** eclass_ext.go:35-107 (NotifyChanged of the adapter of class [c]) *)
  Definition superAdapter (fuel : nat) (m : modified) (c : nat) (s : cstate) (n : notification nat) : option cstate :=
    let s1 :=
      match m with
      | MSuperTypes =>
          match evt n with
          | SET => fold_left (addSub c) (objs (newValue n)) (fold_left (removeSub c) (objs (oldValue n)) s)
          | ADD | ADD_MANY => fold_left (addSub c) (objs (newValue n)) s
          | REMOVE | REMOVE_MANY => fold_left (removeSub c) (objs (oldValue n)) s
          | _ => s
          end
      | _ => s
      end in
    setModified fuel m s1 c.

  Definition withSupers (g : graph) (f : nat -> list nat) : graph := mkGraph f (feats g) (opers g) (info g) (deliver g).
  Definition withFeats (g : graph) (f : nat -> list nat) : graph := mkGraph (supers g) f (opers g) (info g) (deliver g).
  Definition withOpers (g : graph) (f : nat -> list nat) : graph := mkGraph (supers g) (feats g) f (info g) (deliver g).
  Definition withInfo (g : graph) (f : nat -> finfo) : graph := mkGraph (supers g) (feats g) (opers g) f (deliver g).
  Definition withDeliver (g : graph) (f : nat -> bool) : graph := mkGraph (supers g) (feats g) (opers g) (info g) f.
  Definition withID (i : finfo) (b : bool) : finfo :=
    mkInfo (isRef i) (isContainment i) (isContainer i) (isDerived i) b (fname i).

  (** a list operation on one of the lists of class [c]; the notifications reach the adapter of the class when
      the class delivers notifications *)
  Definition edit (fuel : nat) (m : modified) (c : nat) (o : op nat) (s : cstate) : option cstate :=
    let cur := match m with MSuperTypes => supers (gr s) | MOperations => opers (gr s) | _ => feats (gr s) end in
    match nstep Nat.eqb 0%nat true (cur c) (L o) with
    | Panic => None
    | Ret (d, ns) _ =>
        let g := gr s in
        let s1 := setGraph s (match m with
                              | MSuperTypes => withSupers g (upd (supers g) c d)
                              | MOperations => withOpers g (upd (opers g) c d)
                              | _ => withFeats g (upd (feats g) c d)
                              end) in
        if deliver g c
        then fold_left (fun os n => let? s' := os in superAdapter fuel m c s' n) ns (Some s1)
        else Some s1
    end.

  Inductive cop :=
  | CSuper (c : nat) (o : op nat)        (* an operation on GetESuperTypes() *)
  | CFeat (c : nat) (o : op nat)         (* on GetEStructuralFeatures(); moving a feature is removing then adding it *)
  | COper (c : nat) (o : op nat)         (* on GetEOperations() *)
  | CSetID (f : nat) (b : bool) (c : option nat)   (* EAttribute.SetID, [c]: its containing class *)
  | CInfo (f : nat) (i : finfo)          (* any other change of a feature *)
  | CDeliver (c : nat) (b : bool)        (* ESetDeliver on a class *)
  | CAsk (q : query).

  Definition cstep (fuel : nat) (s : cstate) (o : cop) : option (cstate * option answer) :=
    match o with
    | CSuper c o => let? s' := edit fuel MSuperTypes c o s in Some (s', None)
    | CFeat c o => let? s' := edit fuel MFeatures c o s in Some (s', None)
    | COper c o => let? s' := edit fuel MOperations c o s in Some (s', None)
    (* eattribute_ext.go:32-39; called directly, whether or not notifications are delivered *)
    | CSetID f b c =>
        let s1 := setGraph s (withInfo (gr s) (fun x => if Nat.eqb x f then withID (info (gr s) f) b else info (gr s) x)) in
        match c with
        | Some c => let? s' := setModified fuel MAttributes s1 c in Some (s', None)
        | None => Some (s1, None)
        end
    | CInfo f i => Some (setGraph s (withInfo (gr s) (fun x => if Nat.eqb x f then i else info (gr s) x)), None)
    | CDeliver c b => Some (setGraph s (withDeliver (gr s) (upd (deliver (gr s)) c b)), None)
    | CAsk q => let? (s', a) := ask fuel s q in Some (s', Some a)
    end.
  Fixpoint crun (fuel : nat) (s : cstate) (h : list cop) : option cstate :=
    match h with [] => Some s | o :: h' => let? (s', _) := cstep fuel s o in crun fuel s' h' end.
End ClassModel.

(** classes as created: no super types, features or operations; ids are -1 (estructuralfeature_impl.go) *)
Definition freshClasses (i : nat -> finfo) : cstate :=
  mkState (mkGraph (fun _ => []) (fun _ => []) (fun _ => []) i (fun _ => true))
          (fun _ => []) (fun _ _ => None) (fun _ => None) (fun _ => None) (fun _ _ => -1).
