(** What the derived views of a class are, computed from scratch from the super types, features and operations. *)
From Verif Require Import Base ListModel NotifyModel ClassModel.

(** Inheriting a list: first what the super types have, in their order, each followed by [after] it, then the own
    contribution of the class. *)
Section Inherit.
  Context (sup : nat -> list nat) (after own : nat -> list nat).
  Inductive inherited : nat -> list nat -> Prop :=
  | Inh c l : inherits (sup c) l -> inherited c (l ++ own c)
  with inherits : list nat -> list nat -> Prop :=
  | InhNil : inherits [] []
  | InhCons d ds l ls : inherited d l -> inherits ds ls -> inherits (d :: ds) (l ++ after d ++ ls).
End Inherit.

(** [ancestor g a x]: [a] is [x] or a direct or indirect super type of [x] *)
Inductive ancestor (g : graph) (a : nat) : nat -> Prop :=
| AncRefl : ancestor g a a
| AncStep x y : In y (supers g x) -> ancestor g a y -> ancestor g a x.

Definition nothing (_ : nat) : list nat := [].
Definition itself (d : nat) : list nat := [d].

Section Scratch.
  Variable overrides : nat -> nat -> bool.
  Variable g : graph.
  Let i := info g.

  Definition all_supertypes := inherited (supers g) itself nothing.
  Definition all_of (p : nat -> bool) := inherited (supers g) nothing (fun c => filter p (feats g c)).
  Definition all_features := inherited (supers g) nothing (feats g).
  Definition all_operations := inherited (supers g) nothing (opers g).

  Definition attribute f := negb (isRef (i f)).
  Definition reference f := isRef (i f).
  Definition containment f := isRef (i f) && isContainment (i f).
  Definition cross f := isRef (i f) && (negb (isContainment (i f)) && negb (isContainer (i f))).
  Definition persistent f := negb (isDerived (i f)).

  (** the first operation overriding [o] after the last occurrence of [o] that has one *)
  Fixpoint override_in (l : list nat) (o : nat) : option nat :=
    match l with
    | [] => None
    | x :: rest =>
        match override_in rest o with
        | Some y => Some y
        | None => if Nat.eqb x o then find (fun y => overrides y o) rest else None
        end
    end.

  (** the position of a member in a list: any position holding it, or -1 *)
  Definition position_of (x : nat) (l : list nat) (z : Z) : Prop :=
    (In x l -> zget l z = Some x) /\ (~ In x l -> z = -1).

  Definition scratch (q : query) (a : answer) : Prop :=
    match q with
    | QAll KSup c => exists l, all_supertypes c l /\ a = AList l
    | QAll KAttr c => exists l, all_of attribute c l /\ a = AList l
    | QAll KRef c => exists l, all_of reference c l /\ a = AList l
    | QAll KFeat c => exists l, all_features c l /\ a = AList l
    | QAll KOps c => exists l, all_operations c l /\ a = AList l
    | QAll _ _ => False
    | QContainments c => exists l, all_of containment c l /\ a = AList l
    | QCross c => exists l, all_of cross c l /\ a = AList l
    | QAttributes c => a = AList (filter attribute (feats g c))
    | QReferences c => a = AList (filter reference (feats g c))
    | QID c => exists l, all_of attribute c l /\ a = AList (match find (fun f => isID (i f)) l with Some f => [f] | None => [] end)
    | QOwnContainments c => a = AList (filter (fun f => containment f && persistent f) (feats g c))
    | QOwnCross c => a = AList (filter (fun f => cross f && persistent f) (feats g c))
    | QName c n => exists l, all_features c l /\ a = AOpt (find (fun f => Nat.eqb (fname (i f)) n) (rev l))
    | QOverride c o => exists l, all_operations c l /\ a = AOpt (override_in l o)
    | QFeatureID c f => exists l z, all_features c l /\ a = AInt z /\ position_of f l z
    | QFeature c z => exists l, all_features c l /\ a = AOpt (zget l z)
    | QOperationID c o => exists l z, all_operations c l /\ a = AInt z /\ position_of o l z
    | QOperation c z => exists l, all_operations c l /\ a = AOpt (zget l z)
    | QIsSuperTypeOf x y => exists b, a = ABool b /\ (b = true <-> ancestor g x y)
    end.
End Scratch.

(** *** Histories considered *)

(** no class is its own super type, the height of the hierarchy being below [n] *)
Definition acyclic (n : nat) (g : graph) : Prop :=
  exists rank : nat -> nat, (forall c, (rank c < n)%nat) /\ (forall c d, In d (supers g c) -> (rank d < rank c)%nat).
(** a feature or operation belongs to one class, once *)
Definition owned (part : nat -> list nat) : Prop :=
  (forall c, NoDup (part c)) /\ (forall c d x, In x (part c) -> In x (part d) -> c = d).
Definition ok_graph (n : nat) (g : graph) : Prop := acyclic n g /\ owned (feats g) /\ owned (opers g).

(** the graph after a modification, [None] when the list operation panics *)
Definition edited (g : graph) (o : cop) : option graph :=
  let after f c o := match nstep Nat.eqb 0%nat true (f c) (L o) with Ret (d, _) _ => Some (upd f c d) | Panic => None end in
  match o with
  | CSuper c o => option_map (withSupers g) (after (supers g) c o)
  | CFeat c o => option_map (withFeats g) (after (feats g) c o)
  | COper c o => option_map (withOpers g) (after (opers g) c o)
  | CSetID f b _ => Some (withInfo g (fun x => if Nat.eqb x f then withID (info g f) b else info g x))
  | CInfo f i => Some (withInfo g (fun x => if Nat.eqb x f then i else info g x))
  | CDeliver c b => Some (withDeliver g (upd (deliver g) c b))
  | CAsk _ => Some g
  end.

(** The history keeps the hierarchy acyclic and features in one class, modifies only classes that deliver
    notifications, and changes features (other than their ID flag) only while they are in no class. *)
Definition fair_op (n : nat) (g : graph) (o : cop) : Prop :=
  match o with
  | CSuper c _ | CFeat c _ | COper c _ => deliver g c = true
  | CSetID f _ (Some c) => In f (feats g c)
  | CSetID f _ None | CInfo f _ => forall c, ~ In f (feats g c)
  | CDeliver _ _ => True
  | CAsk (QAll k _) => In k [KSup; KAttr; KRef; KFeat; KOps]
  | CAsk _ => True
  end /\ match edited g o with Some g' => ok_graph n g' | None => False end.
Fixpoint fair (n : nat) (g : graph) (h : list cop) : Prop :=
  match h with
  | [] => True
  | o :: h' => fair_op n g o /\ match edited g o with Some g' => fair n g' h' | None => False end
  end.
(** the graph after a history *)
Fixpoint edits (g : graph) (h : list cop) : option graph :=
  match h with [] => Some g | o :: h' => let? g' := edited g o in edits g' h' end.
