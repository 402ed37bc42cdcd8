(** Specification of Copy and CopyAll. *)
From Verif Require Import Base EqualModel EqualSpec ListModel GraphModel GraphSpec CopyModel.

Section CopySpec.
  Context (M : metamodel) (X : copyInfo) (alloc : nat -> nat -> obj).

  (** y is in a containment reference of x that Copy follows *)
  Definition child (g : state) (x y : obj) : Prop :=
    exists f, In f (features M x) /\ copied X f = true /\ attribute X f = false /\ f_cont M f = true /\ In y (slot g x f).
  Inductive inside (g : state) (o : obj) : obj -> Prop :=
  | inside_root : inside g o o
  | inside_child x y : inside g o x -> child g x y -> inside g o y.

  (** an object of which nothing is known yet *)
  Record blank (s : cstate) (z : obj) : Prop := {
    b_slot : forall f, slot (graph s) z f = [];
    b_container : container (graph s) z = None;
    b_resource : internalResource (graph s) z = None;
    b_free : forall o f, ~ In z (slot (graph s) o f);
    b_attr : forall f, attrs s z f = None
  }.
  Definition is_new (s : cstate) (z : obj) : Prop := exists k c, (nextObj s <= k)%nat /\ z = alloc k c.

  (** the state a program can be in when it calls Copy: the graph was made by legal calls, the objects that
      the factories have not made yet are blank, attribute lists exist and have one owner *)
  Record good (s : cstate) : Prop := {
    o_reach : reachable M (graph s);
    o_blank : forall z, is_new s z -> blank s z;
    o_lists : forall o f l, attrs s o f = Some (CList l) -> (l < nextList s)%nat;
    o_owner : forall o f o' f' l, attrs s o f = Some (CList l) -> attrs s o' f' = Some (CList l) -> o = o' /\ f = f'
  }.
  (** factories make objects of the class that is asked for, and never twice the same *)
  Record factory : Prop := {
    a_class : forall k o, classOf M (alloc k (classOf M o)) = classOf M o;
    a_distinct : forall k c k' c', alloc k c = alloc k' c' -> k = k'
  }.
  (** a class lists a feature once, and its own references are among its features *)
  Definition features_listed : Prop := forall o,
    NoDup (features M o) /\ NoDup (ownReferences X (classOf M o)) /\ forall f, In f (ownReferences X (classOf M o)) -> In f (features M o).

  (** the value of an attribute, as EGet returns it and its elements are read *)
  Definition attr_value (s : cstate) (o : obj) (f : feature) : option aval :=
    match attrs s o f with
    | None => None
    | Some (CPrim p) => Some (APrim p)
    | Some (CList l) => Some (AList (lists s l))
    end.

  (** what the copy of a reference must hold: the copies of the objects that were copied; other objects
      remain, unless the reference has an opposite *)
  Definition redirected (phi : obj -> option obj) (f : feature) (l : list obj) : list obj :=
    flat_map (fun y => match phi y with Some y' => [y'] | None => if isBidirectional M f then [] else [y] end) l.

  (** [s'] is [s] with a copy [c] of every object [x] inside one of the [roots], [phi x = Some c] *)
  Record is_copy (s s' : cstate) (roots : list obj) (phi : obj -> option obj) : Prop := {
    (* one new object of the same class for each object *)
    k_domain : forall x, (exists c, phi x = Some c) <-> exists r, In r roots /\ inside (graph s) r x;
    k_new : forall x c, phi x = Some c -> is_new s c /\ classOf M c = classOf M x;
    k_one : forall x y c, phi x = Some c -> phi y = Some c -> x = y;
    (* nothing else changes *)
    k_frame : forall z, (forall x, phi x <> Some z) ->
      container (graph s') z = container (graph s) z /\ containerFeatureID (graph s') z = containerFeatureID (graph s) z /\
      (forall f, slot (graph s') z f = slot (graph s) z f) /\ (forall f, attrs s' z f = attrs s z f) /\ (forall f, attr_value s' z f = attr_value s z f);
    k_resources : internalResource (graph s') = internalResource (graph s) /\ contents (graph s') = contents (graph s) /\ loaded (graph s') = loaded (graph s);
    (* attributes have the same values, in lists of their own *)
    k_attr : forall x c f, phi x = Some c -> In f (features M x) ->
      attr_value s' c f = if attribute X f && copied X f then attr_value s x f else None;
    k_lists : forall x c f l, phi x = Some c -> attrs s' c f = Some (CList l) -> (nextList s <= l)%nat;
    (* contents are the copies of the contents *)
    k_contents : forall x c f, phi x = Some c -> In f (features M x) -> attribute X f = false -> copied X f = true -> f_cont M f = true ->
      map (@Some obj) (slot (graph s') c f) = map phi (slot (graph s) x f);
    (* references are redirected *)
    k_references : forall x c f, phi x = Some c -> In f (ownReferences X (classOf M x)) -> copied X f = true -> f_cont M f = false -> isContainer M f = false ->
      slot (graph s') c f = redirected phi f (slot (graph s) x f);
    (* references that are not copied hold nothing, or the copies that their opposites added *)
    k_others : forall x c f y', phi x = Some c -> In y' (slot (graph s') c f) ->
      (exists y, phi y = Some y' /\ In y (slot (graph s) x f)) \/
      (f_cont M f = false /\ isBidirectional M f = false /\ phi y' = None /\ In y' (slot (graph s) x f));
    (* the containers of the copies are the copies of the containers, and the roots have none *)
    k_container : forall x c p, phi x = Some c -> child (graph s) p x -> container (graph s') c = phi p;
    k_root : forall x c, phi x = Some c -> In x roots -> container (graph s') c = None;
    (* the result is again such a state *)
    k_good : good s'
  }.

  (** *** comparing the copy with Equals *)
  (** what Equals asks of features; [own]: GetEStructuralFeatures *)
  Definition feats (own : nat -> list feature) : EqualModel.features := Feats own (derived X) (attribute X) (f_many M).
  (** what the getters return *)
  Definition seen (s : cstate) : snapshot := Snap (classOf M) (fun _ => None)
    (fun o f => if attribute X f then match attrs s o f with Some _ => true | None => false end
                else match eGet M (graph s) o f with Some (_ :: _) => true | _ => false end)
    (fun o f => match attr_value s o f with Some v => v | None => ANil end)
    (fun o f => match eGet M (graph s) o f with Some l => l | None => [] end).
  (** the features that a class declares *)
  Definition declared (own : nat -> list feature) : Prop := forall o f, In f (own (classOf M o)) ->
    In f (features M o) /\ (attribute X f = false -> In f (ownReferences X (classOf M o))).
  (** what Copy can copy entirely *)
  Record complete (own : nat -> list feature) (deep : nat -> nat -> bool) (s : cstate) (o : obj) : Prop := {
    (* the root does not refer to its container *)
    q_root : forall f, In f (own (classOf M o)) -> derived X f = false -> attribute X f = false -> isContainer M f = true -> eGet M (graph s) o f = Some [];
    (* features that may not be changed are not set *)
    q_kept : forall x f, inside (graph s) o x -> In f (own (classOf M x)) -> derived X f = false -> changeable X f = false ->
      if attribute X f then attrs s x f = None else isContainer M f = false -> slot (graph s) x f = [];
    (* references with opposites stay inside *)
    q_inside : forall x f y, inside (graph s) o x -> In f (own (classOf M x)) -> derived X f = false -> attribute X f = false -> f_cont M f = false ->
      isContainer M f = false -> isBidirectional M f = true -> In y (slot (graph s) x f) -> inside (graph s) o y;
    (* the values of attributes equal themselves *)
    q_values : forall x f, inside (graph s) o x -> In f (own (classOf M x)) ->
      match attr_value s x f with Some (APrim p) => deep p p = true | Some (AList l) => forall p, In p l -> deep p p = true | _ => True end
  }.

  (** containment does not go in circles *)
  Definition ranked (g : state) (rank : obj -> nat) : Prop := forall x y, child g x y -> (rank y < rank x)%nat.
  (** no root is inside another one *)
  Definition separate (g : state) (roots : list obj) : Prop :=
    NoDup roots /\ forall r r', In r roots -> In r' roots -> inside g r r' -> r = r'.
End CopySpec.
