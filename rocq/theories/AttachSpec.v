(** Specification vocabulary for the announcements of resources. *)
From Verif Require Import Base ListModel ListSpec GraphModel GraphSpec AttachModel.

(** the objects that r's manager holds are those whose EResource() is r *)
Definition registries_right (s : state) (k : registry) : Prop :=
  forall r x, k r x = true <-> exists n, eResource n s x = Some (Some r).

Section AttachSpec.
  Context (M : metamodel).

  (** the reference that decides whether an object contained by f may keep a resource of its own:
      the container reference when f has an opposite, see C54 *)
  Definition keeps_resource (f : feature) : bool :=
    match f_opp M f with Some g => f_resolve M g | None => f_resolve M f end.

  (** the call does not make an object both a root of a resource and contained: a root is only put in a
      containment reference that takes it out of its resource, a contained object is only put in a
      resource when that takes it out of its container *)
  Definition proper_call (s : state) (p : gop) : Prop :=
    match p with
    | OSet o f (Some v) =>
        (f_cont M f = true -> keeps_resource f = true -> internalResource s v = None) /\
        (isContainer M f = true -> f_resolve M f = true -> internalResource s o = None)
    | OList o f p =>
        f_cont M f = true -> keeps_resource f = true -> forall x, In x (op_args p) -> internalResource s x = None
    | OContents r p =>
        forall x f, In x (op_args p) -> containmentFeature M s x = Some f -> f_resolve M f = false
    | _ => True
    end.

  (** histories of such calls, with what the managers heard; [fuel] is a bound on the depth of the
      containment tree, which may differ from call to call *)
  Inductive history : state -> registry -> Prop :=
  | history_init : history init (fun _ _ => false)
  | history_step s k p n s' es : history s k -> legal M s p -> safe_call M s p -> proper_call s p ->
      gstepA M n s p = Some (s', es) -> history s' (hear_all k es).

  (** the same with any well-typed call *)
  Inductive history_any : state -> registry -> Prop :=
  | history_any_init : history_any init (fun _ _ => false)
  | history_any_step s k p n s' es : history_any s k -> typed_call M s p -> safe_call M s p ->
      gstepA M n s p = Some (s', es) -> history_any s' (hear_all k es).

  (** no containment link of the metamodel lets an object keep a resource of its own *)
  Definition no_cross_resource : Prop := forall f, f_cont M f = true -> keeps_resource f = false.
End AttachSpec.
