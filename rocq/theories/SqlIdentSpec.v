(** What the identities of the objects of a SQL store ought to be. *)
From Verif Require Import Base SqlIdentModel.
Local Open Scope list_scope.
Local Open Scope Z_scope.

(** a data base: identifiers are positive, the next one is new, and links and roots lead to rows *)
Record good_db (r : Z -> option nat) (n : Z) (c : Z -> option (nat -> option cell)) (l : list Z) : Prop := {
  good_next : 0 < n;
  good_rows : forall i k, r i = Some k -> 0 < i < n;
  good_cells : forall i m, c i = Some m -> r i <> None;
  good_links : forall i m f j, c i = Some m -> m f = Some (CId j) -> r j <> None;
  good_roots : forall i, In i l -> r i <> None;
  good_classes : forall i k, r i = Some k -> c i <> None }.

(** an object is the given one or below it *)
Inductive within (o : nat) : tree -> Prop :=
| within_itself l : within o (Node o l)
| within_below r l t : In t l -> within o t -> within o (Node r l).

(** a program uses objects that are there *)
Definition allowed (s : store) (k : call) : Prop :=
  match k with
  | New _ v => forall f r, In (f, r) v -> (r < count s)%nat
  | Foreign _ _ | GetRoots => True
  | Get o _ | AddRoot o | RemoveRoot o => (o < count s)%nat
  | Set_ o _ v _ => (o < count s)%nat /\ match v with Some r => (r < count s)%nat | None => True end
  | UnRegister t => forall o, within o t -> (o < count s)%nat
  end.

(** objects belong to one store, and all of them stay registered *)
Definition steady (_ : store) (k : call) : Prop :=
  match k with Foreign _ _ | UnRegister _ => False | _ => True end.
(** objects belong to one store *)
Definition own (_ : store) (k : call) : Prop := match k with Foreign _ _ => False | _ => True end.

Section Spec.
  Context (sqlClass contains : nat -> bool).

  (** executions made of calls in [P] *)
  Inductive runs (P : store -> call -> Prop) : store -> list call -> store -> Prop :=
  | runs_nil s : runs P s [] s
  | runs_cons s k l s' s'' : P s k -> allowed s k -> s' = fst (perform sqlClass contains s k) ->
      runs P s' l s'' -> runs P s (k :: l) s''.

  Definition reached (P : store -> call -> Prop) (s : store) : Prop :=
    exists r n c l h, good_db r n c l /\ runs P (opened r n c l) h s.

  (** what a call answers *)
  Definition answers (s : store) (k : call) : answer := snd (perform sqlClass contains s k).

  (** the object of an identifier is in memory *)
  Definition registered (s : store) (o : nat) : Prop := exists i, byID s i = Some o.
End Spec.

(** the call does not set the reference *)
Definition leaves (o f : nat) (s : store) (k : call) : Prop :=
  steady s k /\ match k with Set_ o' f' _ _ => o' <> o \/ f' <> f | _ => True end.

(** the roots after some calls, from those before: a list, to which objects are added at its end *)
Fixpoint replay (h : list call) (l : list nat) : list nat :=
  match h with
  | [] => l
  | AddRoot o :: h' => replay h' (l ++ [o])
  | RemoveRoot o :: h' => replay h' (filter (fun x => negb (Nat.eqb x o)) l)
  | _ :: h' => replay h' l
  end.

(** the call does not set the reference of any object with that identifier *)
Definition leaves_id (i : Z) (f : nat) (s : store) (k : call) : Prop :=
  own s k /\ match k with Set_ o' f' _ _ => sqlid s o' <> i \/ f' <> f | _ => True end.
