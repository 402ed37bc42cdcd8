(** What is expected of the loaded flag. *)
From Verif Require Import Base LoadedModel.

(** a listener follows the flag: each notification starts from what it knows and is a change *)
Fixpoint replay (b : bool) (l : list (bool * bool)) : option bool :=
  match l with
  | [] => Some b
  | (o, n) :: l' => if Bool.eqb o b && negb (Bool.eqb o n) then replay n l' else None
  end.
(** while the resource is loaded, objects are only added *)
Definition adds (o : dop) : Prop := match o with DGet | DOn (LInsert _ _ _) => True | _ => False end.
Definition loads_add (l : list rop) : Prop := forall ops, In (RLoad ops) l -> Forall adds ops.
(** the number of contents *)
Definition size (s : rstate) : nat := match cur s with None => 0 | Some c => nth c (sizes s) 0 end%nat.
(** calls on the list that GetContents returns; no loading *)
Definition list_of (o : lop) : nat := match o with LInsert h _ _ | LRemove h _ _ | LClear h => h end.
Fixpoint current (s : rstate) (l : list rop) : Prop :=
  match l with
  | [] => True
  | o :: l' => match o with RLoad _ => False | ROp (DOn o) => cur s = Some (list_of o) | _ => True end
               /\ match rstep s o with Some s' => current s' l' | None => True end
  end.
