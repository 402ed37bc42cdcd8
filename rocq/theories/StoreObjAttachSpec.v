(** Objects that get a store later, or another one: what is required of the store. *)
From Verif Require Import Base ListModel NotifyModel StoreListModel StoreListSpec StoreObjModel StoreObjSpec.

Section StoreObjAttachSpec.
  Context {A : Type} (eqb : A -> A -> bool) (nilv : A) (kind : nat -> fkind).

  (** as in [allowed]; a store may be attached if it already has the object's contents *)
  Definition attachable (w : world A) (r : contents A) (o : wop A) : Prop :=
    match o with
    | WSetEStore (Some t) => stores kind w t r
    | o => allowed eqb kind r o
    end.
  Fixpoint all_attachable (w : world A) (r : contents A) (h : list (wop A)) : Prop :=
    match h with
    | [] => True
    | o :: h' => attachable w r o
                 /\ match wstep eqb nilv kind w o, rec_step eqb kind r o with
                    | Some (w', _), Some (r', _) => all_attachable w' r' h'
                    | _, _ => True
                    end
    end.

  (** the contents of an object: those of its store, or nothing *)
  Definition initial (start : option nat) (v : nat -> nat -> option A) (l : nat -> nat -> list A) : contents A :=
    match start with
    | Some s => Cts (v s) (l s)
    | None => Cts (fun _ => None) (fun _ => [])
    end.
  (** the attached store has the contents *)
  Definition persisted (w : world A) (r : contents A) : Prop :=
    match wstore w with Some s => stores kind w s r | None => True end.
  (** a call changes the contents of the attached store only *)
  Definition only_attached (w w' : world A) : Prop :=
    forall t, wstore w <> Some t -> values w' t = values w t /\ lists w' t = lists w t.
  Fixpoint steps_only_attached (w : world A) (h : list (wop A)) : Prop :=
    match h with
    | [] => True
    | o :: h' => match wstep eqb nilv kind w o with
                 | Some (w', _) => only_attached w w' /\ steps_only_attached w' h'
                 | None => True
                 end
    end.
End StoreObjAttachSpec.
