(** Model of ecore/deepequal.go and of Equals, EqualsAll of ecore/ecoreutils.go.

    The objects, numbered, are seen through the API: a [snapshot] gives what their getters return.
    Simplification: EGet may resolve proxies and so change the graph; the snapshot is the graph after
    resolution (an object that is still a proxy is one that does not resolve).
    Classes, features, primitive values and proxy URIs (their texts, uri.go:424-426) are numbers too. *)
From Verif Require Import Base.

Notation obj := nat (only parsing).
Notation feature := nat (only parsing).

(** the value of an attribute: nil, a single value, or a list *)
Inductive aval := ANil | APrim (p : nat) | AList (l : list nat).

Record snapshot := Snap {
  eClass : obj -> nat;                     (* EClass *)
  proxyURI : obj -> option nat;            (* EProxyURI; EIsProxy: not nil *)
  eIsSet : obj -> feature -> bool;         (* EIsSet *)
  eAttr : obj -> feature -> aval;          (* EGet of an attribute *)
  eRefs : obj -> feature -> list obj       (* EGet of a reference: a list, or at most one object (nil: none) *)
}.
(** GetEStructuralFeatures (the features of the class itself), and what is asked of a feature *)
Record features := Feats {
  ownFeatures : nat -> list feature;
  isDerived : feature -> bool;
  isAttribute : feature -> bool;
  isMany : feature -> bool
}.

(** dE.objects; the result and the map, a panic, or the bound of the recursion reached *)
Notation matches := (obj -> option obj).
Inductive res := R (b : bool) (m : matches) | RPanic | RFuel.

Definition set_match (m : matches) (a b : obj) : matches :=
  fun x => if (x =? b)%nat then Some a else if (x =? a)%nat then Some b else m x.
Definition delete_match (m : matches) (a b : obj) : matches :=
  fun x => if (x =? b)%nat then None else if (x =? a)%nat then None else m x.
Definition no_match : matches := fun _ => None.

Section Equal.
  (** reflect.DeepEqual on attribute values *)
  Context (deep : nat -> nat -> bool) (F : features) (S : snapshot).

  (** deepequal.go:115-128 (equalsPrimitiveList) *)
  Fixpoint equalsPrimitives (l1 l2 : list nat) : bool :=
    match l1, l2 with
    | [], [] => true
    | p1 :: l1', p2 :: l2' => if deep p1 p2 then equalsPrimitives l1' l2' else false
    | _, _ => false
    end.
  Definition equalsPrimitiveList (l1 l2 : list nat) : bool :=
    if (length l1 =? length l2)%nat then equalsPrimitives l1 l2 else false.

  (** deepequal.go:144-161; [None]: the type assertions panic.  A list as the value of a single-valued
      attribute is not modelled (the same [None]). *)
  Definition equalsAttribute (a b : obj) (f : feature) : option bool :=
    match eAttr S a f, eAttr S b f with
    | ANil, ANil => Some true
    | ANil, _ | _, ANil => Some false
    | AList l1, AList l2 => if isMany F f then Some (equalsPrimitiveList l1 l2) else None
    | APrim p1, APrim p2 => if isMany F f then None else Some (deep p1 p2)
    | _, _ => None
    end.

  Section Rec.
    Context (equals : matches -> obj -> obj -> res).

    (** deepequal.go:100-113 *)
    Fixpoint equalsObjects (m : matches) (l1 l2 : list obj) : res :=
      match l1, l2 with
      | [], [] => R true m
      | a :: l1', b :: l2' =>
          match equals m a b with
          | R true m' => equalsObjects m' l1' l2'
          | r => r
          end
      | _, _ => R false m
      end.
    Definition equalsObjectList (m : matches) (l1 l2 : list obj) : res :=
      if (length l1 =? length l2)%nat then equalsObjects m l1 l2 else R false m.

    (** deepequal.go:163-171; the assertion on a nil value panics *)
    Definition equalsReference (m : matches) (a b : obj) (f : feature) : res :=
      if isMany F f then equalsObjectList m (eRefs S a f) (eRefs S b f)
      else match eRefs S a f, eRefs S b f with
           | [x], [y] => equals m x y
           | _, _ => RPanic
           end.

    (** deepequal.go:130-142 *)
    Definition equalsFeature (m : matches) (a b : obj) (f : feature) : res :=
      if eIsSet S a f && eIsSet S b f then
        if isAttribute F f then match equalsAttribute a b f with Some r => R r m | None => RPanic end
        else equalsReference m a b f
      else R (Bool.eqb (eIsSet S a f) (eIsSet S b f)) m.

    (** deepequal.go:87-93 *)
    Fixpoint equalsFeatures (m : matches) (a b : obj) (fs : list feature) : res :=
      match fs with
      | [] => R true m
      | f :: fs' =>
          if isDerived F f then equalsFeatures m a b fs'
          else match equalsFeature m a b f with
               | R true m' => equalsFeatures m' a b fs'
               | R false m' => R false (delete_match m' a b)
               | r => r
               end
      end.
  End Rec.

  (** deepequal.go:24-98, on objects that are not nil *)
  Fixpoint equals (fuel : nat) (m : matches) (a b : obj) : res :=
    match fuel with
    | O => RFuel
    | Datatypes.S n =>
        match m a with
        | Some x => R (x =? b)%nat m
        | None =>
            match m b with
            | Some y => R (y =? a)%nat m
            | None =>
                if (a =? b)%nat then R true (set_match m a b)
                else match proxyURI S a with
                     | Some u => match proxyURI S b with
                                 | Some v => if (u =? v)%nat then R true (set_match m a b) else R false m
                                 | None => R false m
                                 end
                     | None =>
                         match proxyURI S b with
                         | Some _ => R false m
                         | None =>
                             if (eClass S a =? eClass S b)%nat
                             then equalsFeatures (equals n) (set_match m a b) a b (ownFeatures F (eClass S a))
                             else R false m
                         end
                     end
            end
        end
    end.

  (** deepequal.go:24-33 and ecoreutils.go:163-166 (Equals), 168-171 (EqualsAll) *)
  Definition Equals (fuel : nat) (a b : option obj) : res :=
    match a, b with
    | None, None => R true no_match
    | Some x, Some y => equals fuel no_match x y
    | _, _ => R false no_match
    end.
  Definition EqualsAll (fuel : nat) (l1 l2 : list obj) : res := equalsObjectList (equals fuel) no_match l1 l2.
End Equal.
