(** Specification of containment traversals. *)
From Verif Require Import Base TreeModel.

Section Preorder.
  Context (children : nat -> list nat).
  (** [preorder l r]: [r] lists the trees of roots [l], parents first, siblings in order.  It exists exactly
      for finite trees. *)
  Inductive preorder : list nat -> list nat -> Prop :=
  | pre_nil : preorder [] []
  | pre_cons x xs a b : preorder (children x) a -> preorder xs b -> preorder (x :: xs) (x :: a ++ b).

  (** [y] is contained, directly or not, in [x] *)
  Inductive inside (x : nat) : nat -> Prop :=
  | inside_child y : In y (children x) -> inside x y
  | inside_deeper y z : inside x y -> In z (children y) -> inside x z.
End Preorder.

(** the answers expected from an iterator over the sequence [r], for any pattern of calls; [None]: Next was
    called when there was nothing left *)
Fixpoint answers (r : list nat) (calls : list tcall) : option (list tans) :=
  match calls with
  | [] => Some []
  | THas :: cs => let? l := answers r cs in Some (ABool (match r with [] => false | _ => true end) :: l)
  | TNext :: cs => match r with
                   | [] => None
                   | x :: r' => let? l := answers r' cs in Some (AObj x :: l)
                   end
  end.

(** the contents of an object: for each set feature in order, its values *)
Definition contents_of (isMany isSet : nat -> bool) (valueList : nat -> list nat) (valueSingle : nat -> option nat)
  (fs : list nat) : list nat :=
  flat_map (fun f => if isSet f then
                       if isMany f then valueList f else match valueSingle f with Some x => [x] | None => [] end
                     else []) fs.

(** instances: [sub c d]: class [c] is [d] or one of its subclasses *)
Section Typed.
  Context (containments : nat -> list nat) (refType : nat -> nat) (value : nat -> nat -> list nat)
          (objClass : nat -> nat) (sub : nat -> nat -> Prop).
  (** values conform to the type of their reference *)
  Definition well_typed := forall o r x, In x (value o r) -> sub (objClass x) (refType r).
  (** direct contents through some containment reference *)
  Definition part_of (o x : nat) := exists c r, In r (containments c) /\ In x (value o r).
  Inductive part_inside (o : nat) : nat -> Prop :=
  | pi_child x : part_of o x -> part_inside o x
  | pi_deeper x y : part_inside o x -> part_of x y -> part_inside o y.
End Typed.
