(** The admission discipline shared by SQLStore.scheduleOperation (ecore/sqlstore.go:1118-1349) and
    sqlBase.executeSqlite (ecore/sqlbase.go:133-267): every task is registered under some keys; a reading
    task waits for the last writing task registered under each key, a writing task for the last task
    registered under each key.

    A task is identified by its position in the order of scheduling.  Scheduling happens under a mutex
    (sqlstore.go:1150-1271, sqlbase.go:149-262), so it is one step.  A promise settles once: a task is
    [Waiting] or [Running] until it becomes [Resolved] or [Rejected].  The pool has math.MaxInt32 workers
    (sqlstore.go:771), so a task never waits for a worker. *)
From Verif Require Import Base.
Open Scope nat_scope.

Section Sched.
Context {K : Type} (K_dec : forall a b : K, {a = b} + {a <> b}).

Inductive status := Waiting | Running | Resolved | Rejected.

Record task := mkT {
  t_write : bool;
  t_keys : list K;         (* registeredObjectFeatures / q.tables *)
  t_prev : list nat;       (* previous *)
  t_status : status;
  t_cancelled : bool }.    (* the context of the task has been cancelled *)

(** s.objectOperations / s.sqliteQueries, flattened to one level; a key without task is absent *)
Definition regs := list (K * list nat).
Record state := mkS { tasks : list task; reg : regs }.

Definition init : state := mkS [] [].

Fixpoint look (r : regs) (k : K) : list nat :=
  match r with
  | [] => []
  | (k', l) :: r' => if K_dec k k' then l else look r' k
  end.

(** m[k] = l *)
Fixpoint put (r : regs) (k : K) (l : list nat) : regs :=
  match r with
  | [] => [(k, l)]
  | (k', l') :: r' => if K_dec k k' then (k', l) :: r' else (k', l') :: put r' k l
  end.

(** delete(m, k) *)
Fixpoint del (r : regs) (k : K) : regs :=
  match r with
  | [] => []
  | (k', l') :: r' => if K_dec k k' then r' else (k', l') :: del r' k
  end.

(** what a new task has to wait for under one key, given which tasks write: sqlstore.go:1305-1319,
    sqlbase.go:158-171 *)
Fixpoint last_write (wr : nat -> bool) (l : list nat) : option nat :=
  match l with
  | [] => None
  | i :: l' => match last_write wr l' with
               | Some j => Some j
               | None => if wr i then Some i else None
               end
  end.
Fixpoint last_task (l : list nat) : option nat :=
  match l with [] => None | [i] => Some i | _ :: l' => last_task l' end.

Definition previous (wr : nat -> bool) (w : bool) (l : list nat) : option nat :=
  if w then last_task l else last_write wr l.

(** registerOperation, sqlstore.go:1292-1324; body of the loop sqlbase.go:155-174 *)
Definition register1 (wr : nat -> bool) (w : bool) (i : nat) (r : regs) (k : K) : regs * option nat :=
  (put r k (look r k ++ [i]), previous wr w (look r k)).

Fixpoint register_all (wr : nat -> bool) (w : bool) (i : nat) (r : regs) (ks : list K) : regs * list nat :=
  match ks with
  | [] => (r, [])
  | k :: ks' =>
      let '(r1, p) := register1 wr w i r k in
      let '(r2, ps) := register_all wr w i r1 ks' in
      (r2, match p with Some x => x :: ps | None => ps end)
  end.

(** slices.Index *)
Fixpoint index_of (i : nat) (l : list nat) : option nat :=
  match l with
  | [] => None
  | j :: l' => if Nat.eqb i j then Some 0 else option_map S (index_of i l')
  end.

(** unregisterOperation, sqlstore.go:1326-1349; body of the loop sqlbase.go:233-249; [None]: not found *)
Definition unregister1 (i : nat) (r : regs) (k : K) : option regs :=
  let l := look r k in
  match index_of i l with
  | None => None
  | Some n =>
      let l' := firstn n l ++ skipn (S n) l in
      Some (match l' with [] => del r k | _ :: _ => put r k l' end)
  end.

(** lines 1247-1252, 233-249: the second component says whether every key was found *)
Fixpoint unregister_all (i : nat) (r : regs) (ks : list K) : regs * bool :=
  match ks with
  | [] => (r, true)
  | k :: ks' => match unregister1 i r k with
                | None => (r, false)
                | Some r' => unregister_all i r' ks'
                end
  end.

Definition wr_of (ts : list task) (w : bool) (i : nat) : bool :=
  match nth_error ts i with Some t => t_write t | None => w end.

Fixpoint upd {A} (l : list A) (n : nat) (x : A) : list A :=
  match l, n with
  | [], _ => []
  | _ :: l', 0 => x :: l'
  | y :: l', S n' => y :: upd l' n' x
  end.

Definition set_status (s : state) (i : nat) (st : status) : state :=
  match nth_error (tasks s) i with
  | Some t => mkS (upd (tasks s) i (mkT (t_write t) (t_keys t) (t_prev t) st (t_cancelled t))) (reg s)
  | None => s
  end.

Inductive event :=
| ESched (w : bool) (ks : list K)   (* a call schedules a task *)
| EStart (i : nat)                  (* the function of the task is called *)
| EDone (i : nat)                   (* the function succeeds: unregister, then settle *)
| EErr (i : nat)                    (* the function returns an error: unregister, then reject *)
| EFail (i : nat)                   (* rejected without unregistering *)
| EDep (i : nat)                    (* rejected because a previous task was rejected, without unregistering *)
| ECancel (i : nat).                (* the context of the task is cancelled *)

Definition is_resolved (ts : list task) (i : nat) : bool :=
  match nth_error ts i with Some t => match t_status t with Resolved => true | _ => false end | None => false end.
Definition is_rejected (ts : list task) (i : nat) : bool :=
  match nth_error ts i with Some t => match t_status t with Rejected => true | _ => false end | None => false end.

(** one step; [None]: not enabled *)
Definition step (s : state) (e : event) : option state :=
  match e with
  | ESched w ks =>
      let i := length (tasks s) in
      let '(r, ps) := register_all (wr_of (tasks s) w) w i (reg s) ks in
      Some (mkS (tasks s ++ [mkT w ks ps Waiting false]) r)
  | EStart i =>
      (* waiting for all previous promises; a cancelled context ends the waiting: sqlstore.go:1208-1226 *)
      match nth_error (tasks s) i with
      | Some t => match t_status t with
                  | Waiting => if t_cancelled t || forallb (is_resolved (tasks s)) (t_prev t)
                               then Some (set_status s i Running) else None
                  | _ => None
                  end
      | None => None
      end
  | EDone i | EErr i =>
      match nth_error (tasks s) i with
      | Some t => match t_status t with
                  | Running =>
                      let '(r, found) := unregister_all i (reg s) (t_keys t) in
                      let ok := match e with EDone _ => found | _ => false end in
                      Some (mkS (tasks (set_status s i (if ok then Resolved else Rejected))) r)
                  | _ => None
                  end
      | None => None
      end
  | EFail i =>
      match nth_error (tasks s) i with
      | Some t => match t_status t with Running => Some (set_status s i Rejected) | _ => None end
      | None => None
      end
  | EDep i =>
      match nth_error (tasks s) i with
      | Some t => match t_status t with
                  | Waiting => if existsb (is_rejected (tasks s)) (t_prev t)
                               then Some (set_status s i Rejected) else None
                  | _ => None
                  end
      | None => None
      end
  | ECancel i =>
      match nth_error (tasks s) i with
      | Some t => Some (mkS (upd (tasks s) i (mkT (t_write t) (t_keys t) (t_prev t) (t_status t) true)) (reg s))
      | None => None
      end
  end.

Fixpoint run (s : state) (tr : list event) : option state :=
  match tr with
  | [] => Some s
  | e :: tr' => match step s e with Some s' => run s' tr' | None => None end
  end.

End Sched.
Arguments task : clear implicits.
Arguments state : clear implicits.
Arguments event : clear implicits.
Arguments regs : clear implicits.
