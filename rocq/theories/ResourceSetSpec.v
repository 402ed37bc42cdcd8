(** Specification of resource set membership. *)
From Verif Require Import Base ListModel ListSpec GraphModel ResourceSetModel.

Inductive rs_reachable : rsState -> Prop :=
| rs_start : rs_reachable rsInit
| rs_call s q p s' : rs_reachable s -> op_ok Nat.eqb (resources s q) p -> resourcesOp s q p = Some s' -> rs_reachable s'.

Definition sets_agree (s : rsState) : Prop :=
  (forall x q, In x (resources s q) <-> resourceSetOf s x = Some q) /\ (forall q, NoDup (resources s q)).
