(** Model of ecore/abstractenotifier.go, enotifier_impl.go and abstracteadapter.go. *)
From Verif Require Import Base ListModel.

Section ENotify.
  (** [S]: everything an observer can change besides the adapter list;
      [changed a s l]: effect of a.NotifyChanged on [S] and on the notifier's adapter list (observers may
      add or remove adapters while being notified). *)
  Context {Adapter S : Type} (changed : Adapter -> S -> list Adapter -> S * list Adapter).

  (** abstractenotifier.go:117-124 through elistiterator.go:12-30; [None] is out of fuel *)
  Fixpoint notify_loop (fuel : nat) (cursor : nat) (s : S) (l : list Adapter)
    : option (list Adapter * S * list Adapter) :=
    match fuel with
    | O => None
    | Datatypes.S fuel' =>
        match nth_error l cursor with
        | None => Some ([], s, l)
        | Some a =>
            let '(s', l') := changed a s l in
            match notify_loop fuel' (Datatypes.S cursor) s' l' with
            | Some (d, s'', l'') => Some (a :: d, s'', l'')
            | None => None
            end
        end
    end.

  (** abstractenotifier.go:117-124 (ENotify): the adapters notified, in order *)
  Definition ENotify (fuel : nat) (deliver : bool) (s : S) (l : list Adapter) :=
    if deliver then notify_loop fuel 0 s l else Some ([], s, l).

  (** successive notifications *)
  Fixpoint notify_many (fuel n : nat) (deliver : bool) (s : S) (l : list Adapter) : option (list (list Adapter)) :=
    match n with
    | O => Some []
    | Datatypes.S n' =>
        match ENotify fuel deliver s l with
        | None => None
        | Some (d, s', l') => option_map (cons d) (notify_many fuel n' deliver s' l')
        end
    end.
End ENotify.

(** ** Targets of adapters, abstractenotifier.go:45-66 and abstracteadapter.go:22-36 *)
Notation adapter := nat (only parsing).
Notation notifier := nat (only parsing).
Section Targets.

  Record world := mkW { registered : notifier -> list adapter; target : adapter -> option notifier }.

  Definition set_target (t : adapter -> option notifier) (a : adapter) (v : option notifier) :=
    fun x => if Nat.eqb x a then v else t x.

  (** abstracteadapter.go:32-36 (UnSetTarget) *)
  Definition unset_target (t : adapter -> option notifier) (a : adapter) (n : notifier) :=
    match t a with
    | Some m => if Nat.eqb n m then set_target t a None else t
    | None => t
    end.

  (** abstractenotifier.go:54-66: only DidAdd and DidRemove are overridden *)
  Definition on_callback (n : notifier) (t : adapter -> option notifier) (cb : callback adapter) :=
    match cb with
    | DidAdd _ a => set_target t a (Some n)
    | DidRemove _ a => unset_target t a n
    | _ => t
    end.

  (** a call on n.EAdapters(), a non-unique list (abstractenotifier.go:45-52) *)
  Definition adapters_step (w : world) (n : notifier) (o : op adapter) : option (world * res adapter) :=
    match step Nat.eqb 0%nat false (registered w n) o with
    | Panic => None
    | Ret (l, cbs) r =>
        Some (mkW (fun m => if Nat.eqb m n then l else registered w m)
                  (fold_left (on_callback n) cbs (target w)), r)
    end.

  Fixpoint adapters_run (w : world) (ops : list (notifier * op adapter)) : option world :=
    match ops with
    | [] => Some w
    | (n, o) :: r => match adapters_step w n o with Some (w', _) => adapters_run w' r | None => None end
    end.

  Definition world0 : world := mkW (fun _ => []) (fun _ => None).
End Targets.
