(** A compact object seen as a record of independent fields. *)
From Verif Require Import Base CompactModel.

Record view := mkV { field : Z -> any; deliver : bool; containerFeatureID : Z }.

Definition upd (m : Z -> any) (f : Z) (v : any) : Z -> any := fun g => if g =? f then v else m g.

Definition view0 : view := mkV (fun _ => ANil) true (-1).

Definition vstep (s : view) (op : cop) : view :=
  match op with
  | SetField f v => mkV (upd (field s) f v) (deliver s) (containerFeatureID s)
  | SetDeliver b => mkV (field s) b (containerFeatureID s)
  | SetContainer c id => mkV (upd (field s) container_flag c) (deliver s) id
  end.

Definition vrun (s : view) (ops : list cop) : view := fold_left vstep ops s.

(** what the accessors of [o] return is what the record holds *)
Definition reads_as (o : cobj) (s : view) : Prop :=
  (forall f, In f bits -> getField o f = Some (field s f)) /\
  (forall f, In f bits -> hasField o f = negb (is_nil (field s f))) /\
  EDeliver o = deliver s /\
  EInternalContainerFeatureID o = containerFeatureID s.

(** only the eight declared flags are used as field names *)
Definition op_valid (op : cop) : Prop := match op with SetField f _ => In f bits | _ => True end.

(** the container is never set while the properties field is in use *)
Fixpoint props_ok (s : view) (ops : list cop) : Prop :=
  match ops with
  | [] => True
  | op :: r =>
      match op with SetContainer _ _ => field s properties_flag = ANil | _ => True end
      /\ props_ok (vstep s op) r
  end.
