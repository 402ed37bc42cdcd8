(** Model of goroutines that ask one SQL encoder for the data of classes (getEncoderClassData,
    ecore/sqlencoder.go:571-646, called for each object encoded, lines 300 and 356).

    Classes and goroutines are numbered; [supers c] are the direct super types of [c], in order.  Lock and unlock of
    the lock manager are atomic and exclusive, which is C30.  Creating the tables may fail.  Not modelled: the race on
    the map of the data (DESIGN.md), the contents of the data. *)
From Verif Require Import Base.

Section ClassDataModel.
  Context (supers : nat -> list nat).

  (** one call of getEncoderClassData *)
  Inductive cframe :=
  | CWant (c : nat)                      (* line 575 *)
  | CHold (c : nat)                      (* line 578, lock held *)
  | CSupers (c : nat) (ss : list nat)    (* lines 583-589, lock held; [ss] are still to be visited *)
  | CFail (c : nat).                     (* returning an error, lock held *)

  (** a goroutine: the calls it is in, innermost first; the classes it still has to ask for; what its calls returned,
      [true] without error *)
  Record cthread := CT { cstack : list cframe; cjobs : list nat; couts : list (nat * bool) }.
  (** classes with data, holders of the locks, classes whose data were registered, in order *)
  Record cshared := CSh { cdata : nat -> bool; cowner : nat -> option nat; created : list nat }.

  Definition cset {B} (f : nat -> B) (c : nat) (b : B) : nat -> B := fun x => if Nat.eqb x c then b else f x.
  (** line 576, deferred *)
  Definition cunlock (c : nat) (sh : cshared) : cshared := CSh (cdata sh) (cset (cowner sh) c None) (created sh).
  (** return to the caller: an error is passed on, lines 586-588 *)
  Definition cfailed (f : cframe) : cframe := match f with CSupers p _ => CFail p | _ => f end.
  Definition cleave (c : nat) (ok : bool) (st : list cframe) (js : list nat) (os : list (nat * bool)) : cthread :=
    match st with
    | [] => CT [] js (os ++ [(c, ok)])
    | f :: st' => CT ((if ok then f else cfailed f) :: st') js os
    end.

  Inductive cstep (g : nat) : cshared -> cthread -> cshared -> cthread -> Prop :=
  | cs_start sh c js os : cstep g sh (CT [] (c :: js) os) sh (CT [CWant c] js os)
  (** line 575 *)
  | cs_lock sh c st js os : cowner sh c = None ->
      cstep g sh (CT (CWant c :: st) js os) (CSh (cdata sh) (cset (cowner sh) c (Some g)) (created sh)) (CT (CHold c :: st) js os)
  (** lines 578-579 *)
  | cs_found sh c st js os : cdata sh c = true -> cstep g sh (CT (CHold c :: st) js os) (cunlock c sh) (cleave c true st js os)
  | cs_new sh c st js os : cdata sh c = false -> cstep g sh (CT (CHold c :: st) js os) sh (CT (CSupers c (supers c) :: st) js os)
  (** lines 583-585 *)
  | cs_super sh c s ss st js os :
      cstep g sh (CT (CSupers c (s :: ss) :: st) js os) sh (CT (CWant s :: CSupers c ss :: st) js os)
  (** lines 591-642: the tables are created and the data registered *)
  | cs_create sh c st js os :
      cstep g sh (CT (CSupers c [] :: st) js os) (cunlock c (CSh (cset (cdata sh) c true) (cowner sh) (created sh ++ [c]))) (cleave c true st js os)
  | cs_create_fails sh c st js os : cstep g sh (CT (CSupers c [] :: st) js os) sh (CT (CFail c :: st) js os)
  | cs_fail sh c st js os : cstep g sh (CT (CFail c :: st) js os) (cunlock c sh) (cleave c false st js os).

  (** goroutines interleave *)
  Definition cstate := (cshared * list cthread)%type.
  Fixpoint cput (l : list cthread) (i : nat) (x : cthread) : list cthread :=
    match l, i with
    | [], _ => []
    | _ :: r, O => x :: r
    | y :: r, S j => y :: cput r j x
    end.
  Inductive cmove : cstate -> cstate -> Prop :=
  | cm_thread g sh ts t sh' t' : nth_error ts g = Some t -> cstep g sh t sh' t' -> cmove (sh, ts) (sh', cput ts g t').

  (** a new encoder; the goroutines ask for the classes in [work] *)
  Definition cstart (work : list (list nat)) : cstate :=
    (CSh (fun _ => false) (fun _ => None) [], map (fun js => CT [] js []) work).
  Inductive crun : cstate -> nat -> cstate -> Prop :=
  | crun_nil s : crun s 0 s
  | crun_snoc s n s' s'' : crun s n s' -> cmove s' s'' -> crun s (S n) s''.
End ClassDataModel.
