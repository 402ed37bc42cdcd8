(** Model of EContentAdapter (ecore/econtentadapter.go) and of the containment notifications that
    reach it while the object graph is edited (ecore/abstracteobject.go, ecore/basicenotifyinglist.go,
    ecore/eresource_impl.go, ecore/notificationchain.go, ecore/abstractnotification.go).

    The calls of [GraphModel] are repeated here with the notifications they create.  Both versions
    compute the same states, see [AdapterErase.gstepE_erase].

    Simplifications:
    - only notifications of containment references and of resource contents are kept: selfAdapt
      ignores every other one (econtentadapter.go:90-112) and notifications of two features never merge;
    - there are no proxies, so RESOLVE never occurs and EIsProxy is false (lines 49, 117-129);
    - the adapter has no subclass: [adapter.interfaces] is [adapter] (lines 21-29);
    - resource sets (lines 61, 85-89, 107-110) are not modelled;
    - every notifier delivers (EDeliver), other adapters neither edit the graph nor the adapter lists. *)
From Verif Require Import Base ListModel NotifyModel GraphModel.

Inductive notifier := NObj (o : obj) | NRes (r : resource).

(** a notification with its notifier and feature; the feature of a resource's contents is 0, which is
    RESOURCE__CONTENTS only by name: a resource has one list *)
Definition event : Type := (notifier * feature * notification nat)%type.

(** a call that edits the graph and extends the notification chain *)
Definition edit : Type := option (state * list event).

Definition bindE (m : edit) (k : state -> edit) : edit :=
  match m with
  | None => None
  | Some (s, es) => match k s with None => None | Some (s', es') => Some (s', es ++ es') end
  end.
Definition just (s : state) : edit := Some (s, []).
(** append notifications created after the state change *)
Definition emit (s : option state) (es : list event) : edit :=
  match s with Some s' => Some (s', es) | None => None end.
Notation "'let+' x ':=' e 'in' f" := (bindE e (fun x => f)) (at level 200, x name, e at level 100, f at level 200).

Definition payload_of (v : option obj) : payload nat := match v with Some x => PObj x | None => PNil end.

(** the notifications of one call on a unique list; [NotifyModel.nstep] *)
Definition listEvents (data : list obj) (p : nop nat) : list (notification nat) :=
  match nstep Nat.eqb 0%nat true data p with Ret (_, ns) _ => ns | Panic => [] end.

Section Events.
  Context (M : metamodel).
  (** isNotificationRequired (basicenotifyinglist.go:97-100), ENotificationRequired
      (abstractenotifier.go:119-122): the notifier has an adapter *)
  Context (req : notifier -> bool).

  (** createAndAddNotification, basicenotifyinglist.go:102-113 *)
  Definition objEvents (o : obj) (f : feature) (ns : list (notification nat)) : list event :=
    if f_cont M f && req (NObj o) then map (fun n => (NObj o, f, n)) ns else [].
  Definition resEvents (r : resource) (ns : list (notification nat)) : list event :=
    if req (NRes r) then map (fun n => (NRes r, 0%nat, n)) ns else [].

  (** [oldResource.GetContents().RemoveWithNotification(o)] *)
  Definition contentsRemoveE (s : state) (r : resource) (x : obj) : edit :=
    emit (contentsRemove s r x) (resEvents r (listEvents (contents s r) (RemoveWithNotification x))).

  (** abstracteobject.go:782-851 (EBasicSetContainer); its own notifications are about the container
      reference, which is not a containment *)
  Definition basicSetContainerE (s : state) (x : obj) (c : option obj) (id : Z) : edit :=
    let+ s1 :=
      match internalResource s x, c with
      | Some r, Some c' =>
          match eContainmentFeature M x c' id with
          | None => None
          | Some f =>
              if negb (f_resolve M f)
              then let+ s1 := contentsRemoveE s r x in just (setResource s1 x None)
              else just s
          end
      | _, _ => just s
      end in
    just (setContainer s1 x c id).

  (** abstracteobject.go:738-779 (EBasicInverseRemove, eDynamicPropertiesInverseRemove) *)
  Definition basicInverseRemoveE (s : state) (x other : obj) (id : Z) : edit :=
    match feature_at M x id with
    | None => None
    | Some f =>
        if f_many M f then
          emit (let? (l, _) := removeWithNotification (slot s x f) other in Some (setSlot s x f l))
               (objEvents x f (listEvents (slot s x f) (RemoveWithNotification other)))
        else if isContainer M f then basicSetContainerE s x None (getFeatureID M x f)
        else Some (setSlot s x f [],
                   objEvents x f [Notif SET (payload_of (hd_error (slot s x f))) PNil (-1)])
    end.

  (** abstracteobject.go:661-667 (EInverseRemove) *)
  Definition inverseRemoveE (s : state) (x other : obj) (id : Z) : edit :=
    if id >=? 0 then basicInverseRemoveE s x other id else basicSetContainerE s x None id.

  (** abstracteobject.go:854-877 (EBasicRemoveFromContainer, EBasicRemoveFromContainerFeature) *)
  Definition removeFromContainerE (s : state) (x : obj) : edit :=
    let id := containerFeatureID s x in
    match container s x with
    | None => just s
    | Some c =>
        if id >=? 0 then
          match feature_at M x id with
          | None => just s
          | Some g => match f_opp M g with
                      | None => just s
                      | Some f => inverseRemoveE s c x (f_id M f)
                      end
          end
        else inverseRemoveE s c x (BASE - id)
    end.

  (** abstracteobject.go:675-736 (EBasicInverseAdd, eDynamicPropertiesInverseAdd) *)
  Definition basicInverseAddE (s : state) (x other : obj) (id : Z) : edit :=
    match feature_at M x id with
    | None => None
    | Some f =>
        if f_many M f then
          emit (let? (l, _) := doAdd (slot s x f) other in Some (setSlot s x f l))
               (objEvents x f (listEvents (slot s x f) (AddWithNotification other)))
        else if isContainer M f then
          let+ s1 := removeFromContainerE s x in
          basicSetContainerE s1 x (Some other) (getFeatureID M x f)
        else
          let+ s1 :=
            match slot s x f with
            | y :: _ =>
                if f_cont M f then inverseRemoveE s y x (BASE - getFeatureID M x f)
                else match f_opp M f with
                     | Some g => inverseRemoveE s y x (getFeatureID M y g)
                     | None => just s
                     end
            | [] => just s
            end in
          Some (setSlot s1 x f [other],
                objEvents x f [Notif SET (payload_of (hd_error (slot s x f))) (PObj other) (-1)])
    end.

  (** abstracteobject.go:650-658 (EInverseAdd) *)
  Definition inverseAddE (s : state) (x other : obj) (id : Z) : edit :=
    if id >=? 0 then basicInverseAddE s x other id
    else let+ s1 := removeFromContainerE s x in basicSetContainerE s1 x (Some other) id.

  (** [if x != nil { f(x) }] *)
  Definition whenE (v : option obj) (s : state) (f : obj -> edit) : edit :=
    match v with Some x => f x | None => just s end.

  (** abstracteobject.go:419-499 (eDynamicPropertiesSet) on a single-valued reference *)
  Definition eSetE (s : state) (o : obj) (f : feature) (v : option obj) : edit :=
    if isContainer M f then
      let id := getFeatureID M o f in
      let oldContainer := container s o in
      if negb (some_eqb v oldContainer)
         || (match v with Some _ => negb (containerFeatureID s o =? id) | None => false end)
      then
        let+ s1 := whenE oldContainer s (fun _ => removeFromContainerE s o) in
        let+ s2 := whenE v s1 (fun c => match f_opp M f with
                                        | None => None
                                        | Some g => inverseAddE s1 c o (getFeatureID M c g)
                                        end) in
        basicSetContainerE s2 o v id
      else just s
    else if isBidirectional M f || f_cont M f then
      let old := hd_error (slot s o f) in
      if some_eqb old v then just s
      else
        let+ s2 :=
          match f_opp M f with
          | None =>
              let id := getFeatureID M o f in
              let+ s1 := whenE old s (fun y => inverseRemoveE s y o (BASE - id)) in
              whenE v s1 (fun x => inverseAddE s1 x o (BASE - id))
          | Some g =>
              let+ s1 := whenE old s (fun y => inverseRemoveE s y o (getFeatureID M y g)) in
              whenE v s1 (fun x => inverseAddE s1 x o (getFeatureID M x g))
          end in
        Some (setSlot s2 o f (to_list v),
              objEvents o f [Notif SET (payload_of old) (payload_of v) (-1)])
    else just (setSlot s o f (to_list v)).

  (** abstracteobject.go:568-629 (eDynamicPropertiesUnset).  The old value of a many-valued reference
      is the list itself; the unset list is dropped (line 602).  The event is SET or UNSET, which the
      adapter treats alike; nothing is sent when the value is nil. *)
  Definition eUnsetE (s : state) (o : obj) (f : feature) : edit :=
    if isContainer M f then
      match container s o with
      | Some _ =>
          let+ s1 := removeFromContainerE s o in
          basicSetContainerE s1 o None (getFeatureID M o f)
      | None => just s
      end
    else if isBidirectional M f || f_cont M f then
      let old := if f_many M f then None else hd_error (slot s o f) in
      let+ s1 :=
        whenE old s (fun y =>
          match f_opp M f with
          | None => inverseRemoveE s y o (BASE - getFeatureID M o f)
          | Some g => inverseRemoveE s y o (getFeatureID M y g)
          end) in
      Some (setSlot s1 o f [],
            if f_many M f then objEvents o f [Notif SET (PObjs (slot s o f)) PNil (-1)]
            else match old with
                 | Some y => objEvents o f [Notif SET (PObj y) PNil (-1)]
                 | None => []
                 end)
    else just (setSlot s o f []).

  (** basiceobjectlist.go:121-145 (inverseAdd, inverseRemove) *)
  Definition listInverseAddE (s : state) (o : obj) (f : feature) (x : obj) : edit :=
    match f_opp M f with
    | Some g => inverseAddE s x o (f_id M g)
    | None => if f_cont M f then inverseAddE s x o (BASE - f_id M f) else just s
    end.
  Definition listInverseRemoveE (s : state) (o : obj) (f : feature) (x : obj) : edit :=
    match f_opp M f with
    | Some g => inverseRemoveE s x o (f_id M g)
    | None => if f_cont M f then inverseRemoveE s x o (BASE - f_id M f) else just s
    end.

  Fixpoint foldE (f : state -> obj -> edit) (l : list obj) (s : state) : edit :=
    match l with
    | [] => just s
    | x :: l' => let+ s' := f s x in foldE f l' s'
    end.

  (** an operation on o.EGet(f): the inverses, then the list's own notification
      (basicenotifyinglist.go:175-347) *)
  Definition listOpE (s : state) (o : obj) (f : feature) (p : op nat) : edit :=
    match list_effect (slot s o f) p with
    | None => None
    | Some (st, removed, added) =>
        let s0 := setSlot s o f (final (slot s o f) st) in
        let+ s1 := foldE (fun s x => listInverseRemoveE s o f x) removed s0 in
        let+ s2 := foldE (fun s x => listInverseAddE s o f x) added s1 in
        Some (s2, objEvents o f (listEvents (slot s o f) (L p)))
    end.

  (** abstracteobject.go:139-171 (ESetResource) *)
  Definition eSetResourceE (s : state) (x : obj) (newResource : option resource) : edit :=
    let+ s1 := match internalResource s x, newResource with
               | Some r, Some _ => contentsRemoveE s r x
               | _, _ => just s
               end in
    let+ s2 := match container s1 x with
               | Some c =>
                   match eContainmentFeature M x c (containerFeatureID s1 x) with
                   | None => None
                   | Some f =>
                       if f_resolve M f then just s1
                       else let+ s' := removeFromContainerE s1 x in basicSetContainerE s' x None (-1)
                   end
               | None => just s1
               end in
    just (setResource s2 x newResource).

  (** eresource_impl.go:60-97: the contents list *)
  Definition contentsOpE (s : state) (r : resource) (p : op nat) : edit :=
    match list_effect (contents s r) p with
    | None => None
    | Some (st, removed, added) =>
        let s0 := contentsStages s r st in
        let+ s1 := foldE (fun s x => eSetResourceE s x None) removed s0 in
        let+ s2 := foldE (fun s x => eSetResourceE s x (Some r)) added s1 in
        Some (s2, resEvents r (listEvents (contents s r) (L p)))
    end.

  (** eresource_impl.go:474-491: Unload only notifies the loaded state *)
  Definition gstepE (s : state) (p : gop) : edit :=
    match p with
    | OSet o f v => match accessed M o f with None => None | Some f' => eSetE s o f' v end
    | OUnset o f => match accessed M o f with None => None | Some f' => eUnsetE s o f' end
    | OList o f p => match accessed M o f with None => None | Some f' => listOpE s o f' p end
    | OContents r p => contentsOpE s r p
    | OUnload r => emit (unload s r) []
    end.
End Events.

(** ** The chain: notificationchain.go:23-34 and abstractnotification.go:129-148 (Add) *)
Definition notifier_eqb (a b : notifier) : bool :=
  match a, b with
  | NObj x, NObj y => Nat.eqb x y
  | NRes x, NRes y => Nat.eqb x y
  | _, _ => false
  end.
Definition same_place (a b : event) : bool :=
  notifier_eqb (fst (fst a)) (fst (fst b)) && Nat.eqb (snd (fst a)) (snd (fst b)).
(** merge into the first notification of the same notifier and feature that accepts *)
Fixpoint chainAddE (chain : list event) (e : event) : option (list event) :=
  match chain with
  | [] => Some [e]
  | m :: rest =>
      let? r := (if same_place m e then merge 0%nat (snd m) (snd e) else Some None) in
      match r with
      | Some m' => Some ((fst m, m') :: rest)
      | None => let? rest' := chainAddE rest e in Some (m :: rest')
      end
  end.
Fixpoint chainAll (chain : list event) (es : list event) : option (list event) :=
  match es with
  | [] => Some chain
  | e :: es' => let? chain' := chainAddE chain e in chainAll chain' es'
  end.

(** ** The adapter: which notifiers carry it *)
Definition flags : Type := notifier -> bool.
Definition set_flag (A : flags) (n : notifier) (b : bool) : flags :=
  fun m => if notifier_eqb m n then b else A m.

Section Adapter.
  Context (M : metamodel).
  (** the graph when the notifications are dispatched: no call edits it meanwhile *)
  Context (s : state).

  (** abstracteobject.go:213-216 (EContents): the objects of the containment references *)
  Definition eContents (o : obj) : list obj :=
    flat_map (fun f => if f_cont M f then slot s o f else []) (features M o).
  (** econtentadapter.go:43-89: what SetTarget and UnSetTarget walk *)
  Definition children (n : notifier) : list obj :=
    match n with NObj o => eContents o | NRes r => contents s r end.

  Fixpoint foldA (f : flags -> obj -> option flags) (l : list obj) (A : flags) : option flags :=
    match l with
    | [] => Some A
    | x :: l' => let? A' := f A x in foldA f l' A'
    end.

  (** econtentadapter.go:163-170 (addAdapter), then abstractenotifier.go:54-57 (DidAdd) and
      econtentadapter.go:43-69 (SetTarget).  [None]: out of fuel. *)
  Fixpoint addAdapter (fuel : nat) (A : flags) (n : notifier) : option flags :=
    match fuel with
    | O => None
    | S k => if A n then Some A
             else foldA (fun A x => addAdapter k A (NObj x)) (children n) (set_flag A n true)
    end.

  (** econtentadapter.go:178-197: the tests of removeAdapterWithChecks *)
  Definition kept (A : flags) (checkContainer checkResource : bool) (x : obj) : bool :=
    (checkResource && match internalResource s x with Some r => A (NRes r) | None => false end)
    || (checkContainer && match container s x with Some c => A (NObj c) | None => false end).

  (** econtentadapter.go:172-176 (removeAdapter), then abstractenotifier.go:59-66 (DidRemove) and
      econtentadapter.go:71-89 (UnSetTarget), which tests the container of the contents of a resource
      and the resource of the contents of an object *)
  Definition checksContainer (n : notifier) : bool := match n with NObj _ => false | NRes _ => true end.
  Fixpoint removeAdapter (fuel : nat) (A : flags) (n : notifier) : option flags :=
    match fuel with
    | O => None
    | S k => if negb (A n) then Some A
             else foldA (fun A x => if kept A (checksContainer n) (negb (checksContainer n)) x then Some A
                                    else removeAdapter k A (NObj x)) (children n) (set_flag A n false)
    end.
  Definition removeWithChecks (fuel : nat) (checkContainer checkResource : bool) (A : flags) (x : obj) : option flags :=
    if kept A checkContainer checkResource x then Some A else removeAdapter fuel A (NObj x).

  Definition values (p : payload nat) : list obj := match p with PObjs l => l | _ => [] end.
  Definition value (p : payload nat) : list obj := match p with PObj x => [x] | _ => [] end.

  (** econtentadapter.go:115-161 (handleContainment).  A list is not an ENotifier, so SET of a list
      removes and adds nothing.  [notification.GetFeature() != nil] holds for objects only. *)
  Definition handleContainment (fuel : nat) (A : flags) (e : event) : option flags :=
    let '(n, _, nt) := e in
    let c := checksContainer n in
    match evt nt with
    | SET | UNSET =>
        let? A' := foldA (removeWithChecks fuel false true) (value (oldValue nt)) A in
        foldA (fun A x => addAdapter fuel A (NObj x)) (value (newValue nt)) A'
    | ADD => foldA (fun A x => addAdapter fuel A (NObj x)) (value (newValue nt)) A
    | ADD_MANY => foldA (fun A x => addAdapter fuel A (NObj x)) (values (newValue nt)) A
    | REMOVE => foldA (removeWithChecks fuel c (negb c)) (value (oldValue nt)) A
    | REMOVE_MANY => foldA (removeWithChecks fuel c (negb c)) (values (oldValue nt)) A
    | MOVE => Some A
    end.

  (** notificationchain.go:36-45 (Dispatch), abstractenotifier.go:109-117 (ENotify): the adapter hears
      a notification when it is on the notifier at that moment *)
  Fixpoint dispatch (fuel : nat) (A : flags) (chain : list event) : option flags :=
    match chain with
    | [] => Some A
    | e :: rest =>
        let? A' := (if A (fst (fst e)) then handleContainment fuel A e else Some A) in
        dispatch fuel A' rest
    end.
End Adapter.

(** One call with an adapter installed: the graph, then the adapter.  [others] are the notifiers that
    carry some other adapter. *)
Definition astep (M : metamodel) (others : notifier -> bool) (fuel : nat) (s : state) (A : flags) (p : gop)
  : option (state * flags) :=
  match gstepE M (fun n => A n || others n) s p with
  | None => None
  | Some (s', es) =>
      let? chain := chainAll [] es in
      let? A' := dispatch M s' fuel A chain in
      Some (s', A')
  end.
