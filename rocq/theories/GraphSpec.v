(** Specification vocabulary for the object graph: well-formed metamodels, legal calls, reachable
    states, and what a user reads from a state. *)
From Verif Require Import Base ListModel ListSpec GraphModel.

Section GraphSpec.
  Context (M : metamodel).

  (** Opposites are mutual and distinct, the opposite of a containment reference is a single-valued
      non-containment one, and every feature has the same position, its stored id, in every class that
      has it (single inheritance gives this). *)
  Record wf_metamodel : Prop := {
    wf_ids : forall o f, In f (features M o) -> 0 <= f_id M f /\ feature_at M o (f_id M f) = Some f;
    wf_opp : forall f g, f_opp M f = Some g -> f_opp M g = Some f /\ g <> f;
    wf_cont : forall f g, f_cont M f = true -> f_opp M f = Some g -> f_cont M g = false /\ f_many M g = false
  }.

  (** x may be put in the reference f of o: o has f, and x has the opposite of f *)
  Definition link_typed (o : obj) (f : feature) (x : obj) : Prop :=
    In f (features M o) /\ forall g, f_opp M f = Some g -> In g (features M x).

  (** the objects a list operation may add *)
  Definition op_args (p : list_op) : list obj :=
    match p with
    | Add e | Insert _ e | SetAt _ e => [e]
    | AddAll (Ext l) | InsertAll _ (Ext l) => l
    | _ => []
    end.

  (** A call as a typed Go program can make it. [op_ok]: bulk additions on which the duplicate filter
      of the lists is exact (see C01).  EUnset of a many-valued reference with an inverse, and Unload,
      are excluded here: they break the properties, see the refutations. *)
  Definition legal (s : state) (p : gop) : Prop :=
    match p with
    | OSet o f v =>
        f_many M f = false /\ In f (features M o) /\ forall x, v = Some x -> link_typed o f x
    | OUnset o f =>
        In f (features M o) /\ (f_many M f = true -> f_opp M f = None /\ f_cont M f = false)
    | OList o f p =>
        f_many M f = true /\ In f (features M o) /\ op_ok Nat.eqb (slot s o f) p
        /\ forall x, In x (op_args p) -> link_typed o f x
    | OContents r p => op_ok Nat.eqb (contents s r) p
    | OUnload _ => False
    end.

  Inductive reachable : state -> Prop :=
  | reach_init : reachable init
  | reach_step s p s' : reachable s -> legal s p -> gstep M s p = Some s' -> reachable s'.

  (** the same without excluding anything but ill-typed calls *)
  Definition typed_call (s : state) (p : gop) : Prop :=
    match p with
    | OUnset o f => In f (features M o)
    | OUnload _ => True
    | _ => legal s p
    end.
  Inductive reachable_any : state -> Prop :=
  | reach_any_init : reachable_any init
  | reach_any_step s p s' : reachable_any s -> typed_call s p -> gstep M s p = Some s' -> reachable_any s'.

  (** o.EGet(f) holds x *)
  Definition holds (s : state) (o : obj) (f : feature) (x : obj) : Prop :=
    exists l, eGet M s o f = Some l /\ In x l.
  (** x.EContainer() is c and x.EContainingFeature() is f *)
  Definition contained_in (s : state) (x c : obj) (f : feature) : Prop :=
    container s x = Some c /\ eContainingFeature M s x = Some f.

  (** container-and-containment agreement (C05) *)
  Definition containment_agrees (s : state) : Prop :=
    (forall x c f, f_cont M f = true -> (holds s c f x <-> contained_in s x c f)) /\
    (forall x c, container s x = Some c -> exists f, f_cont M f = true /\ contained_in s x c f) /\
    (forall o f l, eGet M s o f = Some l -> NoDup l).

  (** symmetry of opposite references (C06) *)
  Definition opposites_agree (s : state) : Prop :=
    forall r q a b, f_opp M r = Some q -> In r (features M a) -> In q (features M b) ->
      (holds s a r b <-> holds s b q a).

  (** resource membership (C08) *)
  Definition resources_agree (s : state) : Prop :=
    (forall x r, In x (contents s r) <-> internalResource s x = Some r) /\
    (forall r, NoDup (contents s r)).

  (** x is a direct or indirect container of y *)
  Inductive above (s : state) : obj -> obj -> Prop :=
  | above_direct c x : container s x = Some c -> above s c x
  | above_step c d x : container s x = Some c -> above s d c -> above s d x.
  Definition acyclic (s : state) : Prop := forall x, ~ above s x x.

  (** a containment link is only asked for below an object that is not itself below the new child *)
  Definition may_contain (s : state) (c x : obj) : Prop := x <> c /\ ~ above s x c.
  Definition safe_call (s : state) (p : gop) : Prop :=
    match p with
    | OSet o f (Some v) =>
        (f_cont M f = true -> may_contain s o v) /\ (isContainer M f = true -> may_contain s v o)
    | OList o f p => f_cont M f = true -> forall x, In x (op_args p) -> may_contain s o x
    | _ => True
    end.
  Inductive reachable_safe : state -> Prop :=
  | reach_safe_init : reachable_safe init
  | reach_safe_step s p s' : reachable_safe s -> legal s p -> safe_call s p -> gstep M s p = Some s' ->
      reachable_safe s'.

  (** the calls that panic: those whose list operation is out of bounds, or sets a present element *)
  Definition index_error (s : state) (p : gop) : Prop :=
    match p with
    | OList o f p => spec_step Nat.eqb true (slot s o f) p = None
    | OContents r p => spec_step Nat.eqb true (contents s r) p = None
    | _ => False
    end.

  (** every contained object names the containment reference that holds it *)
  Definition containment_feature_right (s : state) (x : obj) : Prop :=
    forall c, container s x = Some c -> exists f, containmentFeature M s x = Some f /\ f_cont M f = true /\ holds s c f x.
  (** x is nowhere: no container, no resource, no containment reference or contents holds it *)
  Definition detached (s : state) (x : obj) : Prop :=
    container s x = None /\ internalResource s x = None /\
    (forall c f, f_cont M f = true -> ~ holds s c f x) /\ forall r, ~ In x (contents s r).
End GraphSpec.
