(** What the list callbacks tell a subclass (maps, resource contents) that maintains derived data. *)
From Verif Require Import Base ListModel ListSpec.

Section CallbackSpec.
  Context {A : Type}.

  (** elements announced as entering, resp. leaving, the list *)
  Fixpoint entered (cbs : list (callback A)) : list A :=
    match cbs with
    | [] => []
    | DidAdd _ e :: r | DidSet _ e _ :: r => e :: entered r
    | _ :: r => entered r
    end.
  Fixpoint left (cbs : list (callback A)) : list A :=
    match cbs with
    | [] => []
    | DidRemove _ e :: r | DidSet _ _ e :: r => e :: left r
    | DidClear l :: r => l ++ left r
    | _ :: r => left r
    end.

  (** applying the callbacks, with their positions, to a mirror *)
  Definition apply_callback (s : list A) (cb : callback A) : list A :=
    match cb with
    | DidAdd i e => insert_at (Z.to_nat i) e s
    | DidSet i e _ => replace_at (Z.to_nat i) e s
    | DidRemove i _ => delete_at (Z.to_nat i) s
    | DidClear _ => []
    | DidMove j e i => move (Z.to_nat i) (Z.to_nat j) e s
    | DidChange => s
    end.

  (** all positions announced are exact: true of every call but AddAll on a plain list *)
  Definition not_add_all (o : op A) : Prop := match o with AddAll _ => False | _ => True end.
End CallbackSpec.
