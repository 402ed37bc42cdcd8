(** Model of goroutines that encode objects with one SQL encoder (ecore/sqlencoder.go:281-419, called by the operations
    of the SQL store, ecore/sqlstore.go:969-978).

    Objects and goroutines are numbered; [kids o] are the objects that encodeFeatureValue encodes for the features of
    [o] (lines 420-425), in order.  Lock and unlock of the lock manager are atomic and exclusive, which is C30; the id
    manager's calls are atomic.  Each query may fail.  Not modelled: encoding of classes, packages and enumeration
    literals (their queries are part of the steps that may fail), the object's own Lock (StoreLockModel), ids removed by
    ClearObjectID while objects are encoded. *)
From Verif Require Import Base.

Section EncodeModel.
  Context (kids : nat -> list nat).

  (** one call of encodeObject *)
  Inductive frame :=
  | Check (o : nat)                   (* before line 284 *)
  | Want (o : nat)                    (* line 286: no id was found *)
  | Recheck (o : nat)                 (* line 290, lock held *)
  | Insert (o : nat)                  (* lines 298-342, lock held *)
  | Kids (o : nat) (ks : list nat)    (* lines 354-411, lock held; [ks] are still to be encoded *)
  | Fail (o : nat).                   (* returning an error, lock held *)

  (** a goroutine: the calls it is in, innermost first; the objects it has to encode; what its calls returned, [true]
      without error *)
  Record thread := T { stack : list frame; jobs : list nat; outs : list (nat * bool) }.
  (** objects with an id, holders of the locks, rows of the objects table in the order of insertion, objects whose
      features are all written *)
  Record shared := Sh { ids : nat -> bool; owner : nat -> option nat; rows : list nat; full : list nat }.

  Definition set {B} (f : nat -> B) (o : nat) (b : B) : nat -> B := fun x => if Nat.eqb x o then b else f x.
  (** line 287, deferred *)
  Definition unlock (o : nat) (sh : shared) : shared := Sh (ids sh) (set (owner sh) o None) (rows sh) (full sh).
  (** encodeObject returns to its caller: an error is passed on (lines 371-374, 386-389) *)
  Definition failed (f : frame) : frame := match f with Kids p _ => Fail p | _ => f end.
  Definition leave (o : nat) (ok : bool) (st : list frame) (js : list nat) (os : list (nat * bool)) : thread :=
    match st with
    | [] => T [] js (os ++ [(o, ok)])
    | f :: st' => T ((if ok then f else failed f) :: st') js os
    end.

  Inductive tstep (g : nat) : shared -> thread -> shared -> thread -> Prop :=
  | ts_start sh r js os : tstep g sh (T [] (r :: js) os) sh (T [Check r] js os)
  (** lines 284-285 *)
  | ts_known sh o st js os : ids sh o = true -> tstep g sh (T (Check o :: st) js os) sh (leave o true st js os)
  | ts_unknown sh o st js os : ids sh o = false -> tstep g sh (T (Check o :: st) js os) sh (T (Want o :: st) js os)
  (** line 286 *)
  | ts_lock sh o st js os : owner sh o = None ->
      tstep g sh (T (Want o :: st) js os) (Sh (ids sh) (set (owner sh) o (Some g)) (rows sh) (full sh)) (T (Recheck o :: st) js os)
  (** lines 290-294 *)
  | ts_encoded sh o st js os : ids sh o = true ->
      tstep g sh (T (Recheck o :: st) js os) (unlock o sh) (leave o true st js os)
  | ts_class sh o st js os : ids sh o = false -> tstep g sh (T (Recheck o :: st) js os) sh (T (Insert o :: st) js os)
  (** lines 329-345: the row is inserted and the id registered *)
  | ts_insert sh o st js os :
      tstep g sh (T (Insert o :: st) js os) (Sh (set (ids sh) o true) (owner sh) (rows sh ++ [o]) (full sh)) (T (Kids o (kids o) :: st) js os)
  | ts_insert_fails sh o st js os : tstep g sh (T (Insert o :: st) js os) sh (T (Fail o :: st) js os)
  (** lines 370-371, 385-386 with 420-425 *)
  | ts_child sh o k ks st js os :
      tstep g sh (T (Kids o (k :: ks) :: st) js os) sh (T (Check k :: Kids o ks :: st) js os)
  | ts_query_fails sh o ks st js os : tstep g sh (T (Kids o ks :: st) js os) sh (T (Fail o :: st) js os)
  (** lines 412-418 *)
  | ts_done sh o st js os :
      tstep g sh (T (Kids o [] :: st) js os) (unlock o (Sh (ids sh) (owner sh) (rows sh) (full sh ++ [o]))) (leave o true st js os)
  | ts_fail sh o st js os : tstep g sh (T (Fail o :: st) js os) (unlock o sh) (leave o false st js os).

  (** goroutines interleave *)
  Definition state := (shared * list thread)%type.
  Fixpoint put (l : list thread) (i : nat) (x : thread) : list thread :=
    match l, i with
    | [], _ => []
    | _ :: r, O => x :: r
    | y :: r, S j => y :: put r j x
    end.
  Inductive step : state -> state -> Prop :=
  | st_thread g sh ts t sh' t' : nth_error ts g = Some t -> tstep g sh t sh' t' -> step (sh, ts) (sh', put ts g t').

  (** the goroutines have to encode [work], the objects in [init] have ids already *)
  Definition start (init : nat -> bool) (work : list (list nat)) : state :=
    (Sh init (fun _ => None) [] [], map (fun js => T [] js []) work).
  Inductive run : state -> nat -> state -> Prop :=
  | run_nil s : run s 0 s
  | run_snoc s n s' s'' : run s n s' -> step s' s'' -> run s (S n) s''.
End EncodeModel.
