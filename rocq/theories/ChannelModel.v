(** Model of infiniteChannel (ecore/sqlstore.go:526-589) as a labelled transition system.
    Both Go channels are unbuffered (lines 533-534), so a send and the matching receive are one joint step.
    Senders and receivers are arbitrary: any number of goroutines may offer to send or receive at any time. *)
From Verif Require Import Base.

Section Channel.
Context {T : Type}.

(** manage, lines 561-589: local variables and whether the goroutine has returned *)
Record manager := mkM { queue : list T; in_nil : bool; returned : bool }.

(** program counter of a goroutine inside Close, lines 550-555 *)
Inductive cpc := C0 | C1 (* !closed.Load() was true *) | C2 (* closed.Store(true) done *) | CEnd.

Record chan := mkC {
  mgr : manager;
  in_closed : bool;      (* close(q.in) happened *)
  out_closed : bool;     (* close(out) happened *)
  closed : bool;         (* q.closed *)
  closers : nat -> cpc;  (* goroutines calling Close *)
  panicked : bool }.

(** lines 532-540 *)
Definition newInfiniteChannel : chan := mkC (mkM [] false false) false false false (fun _ => C0) false.

Inductive label :=
| LSend (v : T)       (* a goroutine completes In() <- v *)
| LRecv (v : T)       (* a goroutine receives v from Out() *)
| LTau                (* the manager observes that in is closed *)
| LCloseOut           (* the manager closes out and returns *)
| LLoad (g : nat) | LStore (g : nat) | LCloseIn (g : nat)   (* goroutine g executes lines 551, 552, 553 *)
| LSendPanic          (* a goroutine sends on the closed channel in *).

(** what the manager waits for at the top of its loop, lines 563-577; receiving from a nil channel never
    proceeds, so with in == nil the select only offers the front element *)
Inductive offer := OClose | ORecv | OSend (front : T) | OSelect (front : T).
Definition manage_offer (m : manager) : offer :=
  match queue m with
  | [] => if in_nil m then OClose else ORecv
  | front :: _ => if in_nil m then OSend front else OSelect front
  end.

Definition set_mgr (c : chan) (m : manager) : chan := mkC m (in_closed c) (out_closed c) (closed c) (closers c) (panicked c).
Definition close_out (c : chan) : chan :=
  mkC (mkM (queue (mgr c)) (in_nil (mgr c)) true) (in_closed c) true (closed c) (closers c) (panicked c).
Definition set_closer (c : chan) (g : nat) (p : cpc) (inc : bool) (cl : bool) (pan : bool) : chan :=
  mkC (mgr c) inc (out_closed c) cl (fun x => if Nat.eqb x g then p else closers c x) pan.

(** one step; [None]: not enabled *)
Definition step (c : chan) (l : label) : option chan :=
  let m := mgr c in
  match l with
  | LSend v =>
      if returned m || in_closed c then None else
      match manage_offer m with
      | ORecv | OSelect _ => Some (set_mgr c (mkM (queue m ++ [v]) (in_nil m) false))   (* lines 574, 582 *)
      | _ => None
      end
  | LRecv v =>
      if returned m then None else
      match manage_offer m, queue m with
      | (OSend _ | OSelect _), front :: rest => Some (set_mgr c (mkM rest (in_nil m) false))  (* lines 578-579 *)
      | _, _ => None
      end
  | LTau =>
      if returned m || negb (in_closed c) then None else
      match manage_offer m with
      | OSelect _ => Some (set_mgr c (mkM (queue m) true false))   (* lines 583-585 *)
      | _ => None
      end
  | LCloseOut =>
      if returned m then None else
      match manage_offer m with
      | OClose => Some (close_out c)                                   (* lines 565-568 *)
      | ORecv => if in_closed c then Some (close_out c) else None      (* lines 570-573 *)
      | _ => None
      end
  | LLoad g =>
      match closers c g with
      | C0 => Some (set_closer c g (if closed c then CEnd else C1) (in_closed c) (closed c) (panicked c))
      | _ => None
      end
  | LStore g =>
      match closers c g with
      | C1 => Some (set_closer c g C2 (in_closed c) true (panicked c))
      | _ => None
      end
  | LCloseIn g =>
      match closers c g with
      | C2 => Some (set_closer c g CEnd true (closed c) (panicked c || in_closed c))  (* close of a closed channel panics *)
      | _ => None
      end
  | LSendPanic => if in_closed c then Some (mkC (mgr c) true (out_closed c) (closed c) (closers c) true) else None
  end.

(** a receive transfers the value the manager offers *)
Definition label_ok (c : chan) (l : label) : Prop :=
  match l with LRecv v => exists rest, queue (mgr c) = v :: rest | _ => True end.

Inductive run : chan -> list label -> chan -> Prop :=
| run_nil c : run c [] c
| run_snoc c tr c' l c'' : run c tr c' -> label_ok c' l -> step c' l = Some c'' -> run c (tr ++ [l]) c''.

End Channel.
Arguments chan : clear implicits.
Arguments label : clear implicits.
Arguments manager : clear implicits.
