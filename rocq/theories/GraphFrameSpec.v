(** Specification vocabulary for what a call on a reference does to the other references. *)
From Verif Require Import Base ListModel ListSpec GraphModel GraphSpec.

Definition within (x : obj) (l : list obj) : bool := existsb (Nat.eqb x) l.
(** l without the objects of A, in the same order *)
Definition without (A l : list obj) : list obj := filter (fun y => negb (within y A)) l.

Section FrameSpec.
  Context (M : metamodel).

  (** k is the opposite of f and neither is a containment reference *)
  Definition other_end (f k : feature) : bool :=
    negb (f_cont M f) && match f_opp M f with Some g => Nat.eqb g k | None => false end.
  (** an object enters f of one object only: it leaves k of any other *)
  Definition exclusive (f k : feature) : bool :=
    (f_cont M f && f_cont M k)
    || (Nat.eqb k f && match f_opp M f with Some g => negb (f_many M g) | None => false end).

  (** what was l in the reference k of a, once the reference f of o has lost the objects R and got A *)
  Definition expected (o : obj) (f : feature) (R A : list obj) (a : obj) (k : feature) (l : list obj) : list obj :=
    if other_end f k then
      if within a A then (if f_many M k then l ++ [o] else [o])
      else if within a R then without [o] l
      else l
    else if exclusive f k then without A l
    else l.

  (** the same once o got the container v (or none) through its container reference f *)
  Definition expected_parent (o : obj) (f : feature) (v : option obj) (a : obj) (k : feature) (l : list obj) : list obj :=
    match v, f_opp M f with
    | Some c, Some r =>
        if Nat.eqb a c && Nat.eqb k r then (if f_many M k then l ++ [o] else [o])
        else if f_cont M k then without [o] l else l
    | _, _ => if f_cont M k then without [o] l else l
    end.

  (** a call on the reference f of o *)
  Definition call_on (p : gop) (o : obj) (f : feature) : Prop :=
    match p with
    | OSet o' f' _ | OUnset o' f' | OList o' f' _ => o' = o /\ f' = f
    | _ => False
    end.
End FrameSpec.

Section RootsSpec.
  Context (M : metamodel).
  (** the reference whose resolveProxies attribute counts when an object enters f *)
  Definition resolving (f : feature) : bool :=
    match f_opp M f with Some g => f_resolve M g | None => f_resolve M f end.
  (** the roots of a resource once the reference f has got the objects A *)
  Definition expected_roots (f : feature) (A l : list obj) : list obj :=
    if f_cont M f && negb (resolving f) then without A l else l.
  (** the same once o got the container v through its container reference f *)
  Definition expected_roots_parent (o : obj) (f : feature) (v : option obj) (l : list obj) : list obj :=
    match v with
    | Some _ => if f_resolve M f then l else without [o] l
    | None => l
    end.
End RootsSpec.
