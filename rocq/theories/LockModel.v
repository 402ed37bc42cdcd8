(** Model of sqlEncoderLockManager (ecore/sqlencoder.go:121-179).
    aquireMutex and releaseMutex run entirely under l.mutex, so each is one atomic step; Lock and Unlock of the
    key's mutex are steps of their own, and goroutines interleave between any two steps.
    One session is one lock(k) ... unlock(k) pair; a goroutine that holds several keys, or works on one after
    the other, is several sessions, which may overlap arbitrarily.
    Keys, mutexes and sessions are numbered. *)
From Verif Require Import Base.

(** where a session is *)
Inductive pc :=
| Idle
| Wait (k m : nat)   (* in lock(k), aquireMutex returned m, mutex.Lock() not done: line 171 *)
| Crit (k m : nat)   (* between lock(k) and unlock(k); m only records which mutex was locked *)
| Unl (m : nat).     (* in unlock, releaseMutex returned m, mutex.Unlock() not done: line 177 *)

(** lines 121-130; an entry is (mutex, refCount) *)
Record mgr := mkMgr {
  locks : nat -> option (nat * nat);
  pool : list nat;       (* sync.Pool: mutexes put back *)
  next : nat;            (* mutexes >= next were never created *)
  held : nat -> bool;    (* state of each sync.Mutex *)
  pcs : list pc }.

Definition newSqlEncoderLockManager (n : nat) : mgr := mkMgr (fun _ => None) [] 0 (fun _ => false) (repeat Idle n).

Definition fset {T} (f : nat -> T) (k : nat) (v : T) : nat -> T := fun x => if Nat.eqb x k then v else f x.
Fixpoint upd (l : list pc) (i : nat) (x : pc) : list pc :=
  match l, i with
  | [], _ => []
  | _ :: r, O => x :: r
  | y :: r, S j => y :: upd r j x
  end.
Definition set_pc (s : mgr) (i : nat) (x : pc) : mgr := mkMgr (locks s) (pool s) (next s) (held s) (upd (pcs s) i x).

(** sync.Pool.Get may return any mutex put back earlier (removing it) or a new one; it may also forget
    mutexes. [Get s m s']: Get returned m. *)
Inductive Get : mgr -> nat -> mgr -> Prop :=
| get_pool s m p1 p2 : pool s = p1 ++ m :: p2 -> Get s m (mkMgr (locks s) (p1 ++ p2) (next s) (held s) (pcs s))
| get_new s : Get s (next s) (mkMgr (locks s) (pool s) (S (next s)) (held s) (pcs s)).

Inductive step : mgr -> mgr -> Prop :=
(** the pool drops a mutex *)
| st_gc s m p1 p2 : pool s = p1 ++ m :: p2 -> step s (mkMgr (locks s) (p1 ++ p2) (next s) (held s) (pcs s))
(** aquireMutex, lines 143-154: no entry yet *)
| st_acquire_new s i k m s1 : nth_error (pcs s) i = Some Idle -> locks s k = None -> Get s m s1 ->
    step s (mkMgr (fset (locks s1) k (Some (m, 1%nat))) (pool s1) (next s1) (held s1) (upd (pcs s1) i (Wait k m)))
(** aquireMutex: existing entry *)
| st_acquire_old s i k m rc : nth_error (pcs s) i = Some Idle -> locks s k = Some (m, rc) ->
    step s (mkMgr (fset (locks s) k (Some (m, S rc))) (pool s) (next s) (held s) (upd (pcs s) i (Wait k m)))
(** mutex.Lock(), line 171: blocks while the mutex is locked *)
| st_lock s i k m : nth_error (pcs s) i = Some (Wait k m) -> held s m = false ->
    step s (mkMgr (locks s) (pool s) (next s) (fset (held s) m true) (upd (pcs s) i (Crit k m)))
(** releaseMutex, lines 156-167: last user *)
| st_release_last s i k m0 m rc : nth_error (pcs s) i = Some (Crit k m0) -> locks s k = Some (m, rc) -> (rc - 1 = 0)%nat ->
    step s (mkMgr (fset (locks s) k None) (m :: pool s) (next s) (held s) (upd (pcs s) i (Unl m)))
(** releaseMutex: other users remain *)
| st_release s i k m0 m rc : nth_error (pcs s) i = Some (Crit k m0) -> locks s k = Some (m, rc) -> (rc - 1 <> 0)%nat ->
    step s (mkMgr (fset (locks s) k (Some (m, rc - 1)%nat)) (pool s) (next s) (held s) (upd (pcs s) i (Unl m)))
(** releaseMutex returned nil, line 166: unlock does nothing *)
| st_release_none s i k m0 : nth_error (pcs s) i = Some (Crit k m0) -> locks s k = None -> step s (set_pc s i Idle)
(** mutex.Unlock(), line 177; a fatal error if the mutex is not locked, see [unlock_fatal] *)
| st_unlock s i m : nth_error (pcs s) i = Some (Unl m) -> held s m = true ->
    step s (mkMgr (locks s) (pool s) (next s) (fset (held s) m false) (upd (pcs s) i Idle)).

(** unlock of an unlocked mutex *)
Definition unlock_fatal (s : mgr) : Prop := exists i m, nth_error (pcs s) i = Some (Unl m) /\ held s m = false.

Inductive reachable (n : nat) : mgr -> Prop :=
| r_init : reachable n (newSqlEncoderLockManager n)
| r_step s s' : reachable n s -> step s s' -> reachable n s'.
