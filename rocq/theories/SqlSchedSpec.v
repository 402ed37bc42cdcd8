(** What users expect from the schedulers of the SQL store, in terms of calls and of when they execute. *)
From Coq Require Import String.
From Verif Require Import Base SchedModel SqlSchedModel.
Open Scope nat_scope.

(** ** Operations on objects *)
Definition executing (s : store) (i : nat) : Prop := status_of s i = Some Running.
Definition succeeded (s : store) (i : nat) : Prop := status_of s i = Some Resolved.
Definition failed (s : store) (i : nat) : Prop := status_of s i = Some Rejected.
Definition ended (s : store) (i : nat) : Prop := succeeded s i \/ failed s i.
Definition pending_op (s : store) (i : nat) : Prop := status_of s i = Some Waiting \/ executing s i.

(** the calls by position: [i] is called before [j] when [i < j] *)
Definition called (s : store) (i : nat) (c : call) : Prop := nth_error (calls s) i = Some c.

(** the call names the feature [f] of the object [o] *)
Definition on (c : call) (o f : nat) : Prop := c_object c = Some o /\ c_feature c = Some f.

(** the call concerns everything about object [o] *)
Definition covers_object (c : call) (o : nat) : Prop :=
  c_object c = None \/ (c_object c = Some o /\ c_feature c = None) \/
  (c_object c <> None /\ In o (c_contents c)) \/ (c_value c = VObj o /\ c_object c <> Some o).
Definition covers (c : call) (o f : nat) : Prop := on c o f \/ covers_object c o.

(** whatever [ca] names, [cb] concerns *)
Definition within (ca cb : call) : Prop :=
  match c_object ca, c_feature ca with
  | Some o, Some f => covers cb o f
  | Some o, None => covers_object cb o
  | None, _ => c_object cb = None
  end.

Fixpoint no_timeout (tr : list sevent) : Prop :=
  match tr with [] => True | STimeout _ :: _ => False | _ :: tr' => no_timeout tr' end.

(** executions without failure *)
Fixpoint no_failure (tr : list sevent) : Prop :=
  match tr with
  | [] => True
  | (STimeout _ | SErr _ | SPanic _ | SDep _) :: _ => False
  | _ :: tr' => no_failure tr'
  end.

Section Traces.
Variable default : nat -> value.
Notation sstep := (sstep default).

(** [P] holds of every event and the state in which it happens *)
Fixpoint along (P : store -> sevent -> Prop) (s : store) (tr : list sevent) : Prop :=
  match tr with
  | [] => True
  | e :: tr' => P s e /\ match sstep s e with Some s' => along P s' tr' | None => True end
  end.

(** a reading operation is only called when no other one is pending *)
Definition one_read_at_a_time : store -> list sevent -> Prop :=
  along (fun s e => match e with
                    | SCall c => c_write c = false ->
                        forall i ci, called s i ci -> c_write ci = false -> ended s i
                    | _ => True
                    end).

(** an operation fails only while no other one is pending, and none panics *)
Definition isolated_failures : store -> list sevent -> Prop :=
  along (fun s e => match e with
                    | SErr i => forall j, j <> i -> ~ pending_op s j
                    | SPanic _ | STimeout _ => False
                    | _ => True
                    end).

(** Set and UnSet write, Get reads *)
Definition typed_call (c : call) : Prop :=
  match c_cmd c with CSet | CUnSet => c_write c = true | CGet => c_write c = false | COther => True end.

(** every call that writes the feature, or the whole object or store, is a Set of that feature *)
Definition only_sets (o f : nat) (tr : list sevent) : Prop :=
  forall c, In (SCall c) tr -> typed_call c /\
    (c_write c = true -> covers c o f -> c_cmd c = CSet /\ on c o f /\ c_index c = (-1)%Z).

(** EAllContents yields different objects, not including the object itself, and only calls on an object carry a value *)
Definition proper_call (c : call) : Prop :=
  NoDup (c_contents c) /\ (forall o, c_object c = Some o -> ~ In o (c_contents c)) /\
  (forall v, c_value c = VObj v -> c_object c <> None /\ ~ In v (c_contents c)).
Definition proper (tr : list sevent) : Prop := forall c, In (SCall c) tr -> proper_call c.

End Traces.

(** the value of the last Set among the calls [cs], or [v] *)
Fixpoint last_set (cs : list call) (o f : nat) (v : value) : value :=
  match cs with
  | [] => v
  | c :: cs' =>
      last_set cs' o f
        (match c_cmd c, c_object c, c_feature c with
         | CSet, Some o', Some f' => if Nat.eqb o' o && Nat.eqb f' f then c_value c else v
         | _, _, _ => v
         end)
  end.

(** ** SQL statements *)
Definition bexecuting (s : state string) (i : nat) : Prop := option_map (@t_status string) (nth_error (tasks s) i) = Some Running.
Definition bended (s : state string) (i : nat) : Prop :=
  option_map (@t_status string) (nth_error (tasks s) i) = Some Resolved \/
  option_map (@t_status string) (nth_error (tasks s) i) = Some Rejected.

(** the [i]-th script of a trace *)
Fixpoint scripts (tr : list bevent) : list (list stmt * bool) :=
  match tr with
  | [] => []
  | BCall l ok :: tr' => (l, ok) :: scripts tr'
  | _ :: tr' => scripts tr'
  end.
Definition script (tr : list bevent) (i : nat) (l : list stmt) (ok : bool) : Prop := nth_error (scripts tr) i = Some (l, ok).

(** scripts made of at most one statement, as sqlitex.Execute runs them *)
Definition single (l : list stmt) : Prop := length l <= 1.
Definition reads (l : list stmt) (t : string) : Prop := exists ts, In (SelectStmt ts) l /\ In t ts.
Definition writes (l : list stmt) (t : string) : Prop := In (WriteStmt t) l.
(** a script that may change the database *)
Definition changes (l : list stmt) : Prop := exists x, In x l /\ match x with SelectStmt _ => False | _ => True end.

(** one of two statements writes a table that the other one reads or writes *)
Definition conflict (la lb : list stmt) : Prop :=
  exists t, (writes la t /\ (writes lb t \/ reads lb t)) \/ (writes lb t /\ reads la t).
