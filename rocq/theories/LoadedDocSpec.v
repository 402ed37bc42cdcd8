(** Calls on the current contents list only, also while a document is read. *)
From Verif Require Import Base LoadedModel LoadedSpec.

Definition on_current (s : rstate) (o : dop) : Prop := match o with DGet => True | DOn o => cur s = Some (list_of o) end.
Fixpoint dcurrent (s : rstate) (l : list dop) : Prop :=
  match l with [] => True | o :: l' => on_current s o /\ match dstep s o with Some s' => dcurrent s' l' | None => True end end.
Fixpoint current_too (s : rstate) (l : list rop) : Prop :=
  match l with
  | [] => True
  | o :: l' => match o with
               | ROp o => on_current s o
               | RLoad ops => dcurrent (Rs true (cur s) (sizes s) (told s)) ops
               | RUnload => True
               end
               /\ match rstep s o with Some s' => current_too s' l' | None => True end
  end.
