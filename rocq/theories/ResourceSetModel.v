(** Model of the resources of resource sets: ecore/eresourceset_impl.go:3-36 (resourcesList) and
    ecore/eresource_impl.go:576-591 (BasicSetResourceSet).  Notifications, the URI map and the loading of
    resources are not modelled. *)
From Verif Require Import Base ListModel NotifyModel GraphModel.

Notation rset := nat (only parsing).

Record rsState := RS {
  resourceSetOf : resource -> option rset;  (* EResourceImpl.resourceSet *)
  resources : rset -> list resource         (* EResourceSetImpl.resources *)
}.

Definition rsInit : rsState := RS (fun _ => None) (fun _ => []).

(** eresource_impl.go:576-591 *)
Definition basicSetResourceSet (s : rsState) (x : resource) (new : option rset) : option rsState :=
  let? l := match resourceSetOf s x with
            | Some q => let? (d, _) := removeWithNotification (resources s q) x in Some (upd (resources s) q d)
            | None => Some (resources s)
            end in
  Some (RS (upd (resourceSetOf s) x new) l).

Fixpoint rsFold (v : option rset) (l : list resource) (s : rsState) : option rsState :=
  match l with
  | [] => Some s
  | x :: l' => let? s' := basicSetResourceSet s x v in rsFold v l' s'
  end.

(** eresourceset_impl.go:25-36: inverseAdd and inverseRemove of the list of the set q *)
Definition resourcesOp (s : rsState) (q : rset) (p : list_op) : option rsState :=
  let? (st, removed, added) := list_effect (resources s q) p in
  let s0 := RS (resourceSetOf s) (upd (resources s) q (final (resources s q) st)) in
  let? s1 := rsFold None removed s0 in
  rsFold (Some q) added s1.
