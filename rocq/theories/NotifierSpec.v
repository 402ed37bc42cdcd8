(** Specification for notifiers and adapter targets. *)
From Verif Require Import Base ListModel NotifierModel.

(** observers that leave the adapter list alone / only append to it *)
Definition quiet {Adapter S} (changed : Adapter -> S -> list Adapter -> S * list Adapter) : Prop :=
  forall a s l, snd (changed a s l) = l.
Definition only_appends {Adapter S} (changed : Adapter -> S -> list Adapter -> S * list Adapter) : Prop :=
  forall a s l, exists l', snd (changed a s l) = l ++ l'.

(** an adapter used with notifier [n] has it as target exactly while registered with it *)
Definition targets_agree (w : world) (n : notifier) : Prop :=
  forall a, target w a = Some n <-> In a (registered w n).

(** calls that keep an adapter list free of duplicates and neither Clear nor Set it *)
Definition target_safe (l : list adapter) (o : op adapter) : Prop :=
  match o with
  | Add a => ~ In a l
  | AddAll (Ext c) | InsertAll _ (Ext c) => NoDup c /\ (forall a, In a c -> ~ In a l)
  | Insert _ a => ~ In a l
  | AddAll Self | InsertAll _ Self => l = []
  | SetAt _ _ | Clear => False
  | _ => True
  end.

(** all calls go to notifier [n] and are safe *)
Fixpoint history_safe (w : world) (n : notifier) (ops : list (op adapter)) : Prop :=
  match ops with
  | [] => True
  | o :: r => target_safe (registered w n) o /\
              match adapters_step w n o with Some (w', _) => history_safe w' n r | None => True end
  end.
