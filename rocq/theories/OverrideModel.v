(** Model of operations that override others (ecore/eoperation_ext.go:24-41, ecore/eclass_ext.go:196-221, 356-379).

    Classes, operations, names and types are numbers.  The derived lists are computed anew: their caching is in
    ClassModel, where IsOverrideOf is arbitrary.  Running out of fuel (a cycle of supertypes) is [None]. *)
From Verif Require Import Base.

Record hierarchy := H {
  supers : nat -> list nat;             (* GetESuperTypes *)
  opers : nat -> list nat;              (* GetEOperations *)
  owner : nat -> option nat;            (* GetEContainingClass of an operation *)
  opname : nat -> nat;                  (* GetName *)
  params : nat -> list nat }.           (* GetEType of GetEParameters *)

Fixpoint collect {A} (f : nat -> option (list A)) (l : list nat) : option (list A) :=
  match l with [] => Some [] | c :: l' => let? a := f c in let? b := collect f l' in Some (a ++ b) end.
(** eclass_ext.go:356-379 (initEAllOperations): no duplicates are dropped *)
Fixpoint allOperations (h : hierarchy) (fuel c : nat) : option (list nat) :=
  match fuel with
  | O => None
  | S f => let? l := collect (allOperations h f) (supers h c) in Some (l ++ opers h c)
  end.
(** eclass_ext.go:406-419 (initEAllSuperTypes); the order differs, only membership matters here *)
Fixpoint allSuperTypes (h : hierarchy) (fuel c : nat) : option (list nat) :=
  match fuel with
  | O => None
  | S f => let? l := collect (allSuperTypes h f) (supers h c) in Some (l ++ supers h c)
  end.
(** eclass_ext.go:122-124 (IsSuperTypeOf), [b]: the class or nil *)
Definition isSuperTypeOf (h : hierarchy) (fuel a : nat) (b : option nat) : bool :=
  match b with
  | None => false
  | Some b => (b =? a)%nat || match allSuperTypes h fuel b with Some l => existsb (Nat.eqb a) l | None => false end
  end.
Fixpoint sameTypes (l m : list nat) : bool :=
  match l, m with x :: l', y :: m' => if (x =? y)%nat then sameTypes l' m' else false | _, _ => true end.
(** eoperation_ext.go:24-41 *)
Definition isOverrideOf (h : hierarchy) (fuel e other : nat) : bool :=
  match owner h other with
  | None => false
  | Some c =>
      if isSuperTypeOf h fuel c (owner h e) && (opname h other =? opname h e)%nat
      then if (length (params h e) =? length (params h other))%nat then sameTypes (params h e) (params h other) else false
      else false
  end.
Definition mapPut (m : nat -> option nat) (k v : nat) : nat -> option nat := fun x => if (x =? k)%nat then Some v else m x.
(** eclass_ext.go:203-221 (initOperationToOverrideMap): the inner loop goes from the end and does not stop *)
Fixpoint overrideMap (ov : nat -> nat -> bool) (l : list nat) (m : nat -> option nat) : nat -> option nat :=
  match l with
  | [] => m
  | oi :: rest => overrideMap ov rest (fold_left (fun m oj => if ov oj oi then mapPut m oi oj else m) (rev rest) m)
  end.
(** eclass_ext.go:196-201 *)
Definition getOverride (h : hierarchy) (fuel c o : nat) : option (option nat) :=
  let? l := allOperations h fuel c in Some (overrideMap (isOverrideOf h fuel) l (fun _ => None) o).
