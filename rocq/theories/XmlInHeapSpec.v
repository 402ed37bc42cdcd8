(** What holds of the objects of a resource, whatever text it was loaded from. *)
From Verif Require Import Base Chars XmlInModel.

Section Heap.
Context {V : Type} (M : meta V).

(** the objects a feature refers to *)
Definition targets (v : rslot V) : list nat := match v with SRef x => [x] | SRefs l => l | _ => [] end.
(** a feature is unset or holds a value of its kind *)
Definition shape (f : nat) (v : rslot V) : Prop :=
  match v with
  | Unset => True
  | SData _ => m_kind M f = Single
  | SDatas _ => m_kind M f = Many
  | SRefs _ => m_kind M f = ManyAdd
  | SRef _ => m_kind M f = Other
  end.
Record well_formed (s : reader V) : Prop := {
  (* what a containment feature holds has its owner as container, and is held once *)
  wf_down : forall a f x, m_contain M f = true -> In x (targets (r_slot (heap s a) f)) -> r_parent (heap s x) = Some (a, f);
  (* an object is held by the feature of its container *)
  wf_up : forall x a f, r_parent (heap s x) = Some (a, f) -> m_contain M f = true /\ In x (targets (r_slot (heap s a) f));
  (* no object twice in a containment list or in a list of different objects *)
  wf_once : forall a f, m_contain M f = true \/ m_unique M f = true -> NoDup (targets (r_slot (heap s a) f));
  (* features refer to objects which were created *)
  wf_range : forall a f x, In x (targets (r_slot (heap s a) f)) -> (a < next s)%nat /\ (x < next s)%nat;
  wf_shape : forall a f, shape f (r_slot (heap s a) f);
  (* the contents are different objects without container *)
  wf_roots : NoDup (rcontents s) /\ forall x, In x (rcontents s) -> (x < next s)%nat /\ r_parent (heap s x) = None }.
(** nothing was read *)
Definition nothing (s : reader V) : Prop := next s = 0%nat /\ rcontents s = [] /\ errors s = [].
End Heap.
