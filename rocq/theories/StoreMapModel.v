(** Model of ecore/estoremap.go: the maps of objects that keep their features in a store.

    A store-backed map is the map of basicemap.go ([MapModel]) over a store-backed list ([StoreListModel])
    instead of an array list.  Entries are the numbered cells of [MapModel]; what the entries keep in the store
    themselves is not modelled, and neither are the inverse references and notifications of the list.  The store
    keeps to the contract of [StoreListModel].

    The second part is the locking: a map has the mutex of basicemap.go, its list has the recursive mutex of
    estorelist.go. *)
From Verif Require Import Base ListModel MapModel NotifyModel StoreListModel.

Section StoreMapModel.
  Context {K V : Type} (keqb : K -> K -> bool) (veqb : V -> V -> bool).
  (** the feature's isUnique, estorelist.go:42 *)
  Context (unique : bool).

  (** estoremap.go:12-15, 45-48, basicemap.go:14-19 *)
  Record smap := mkSMap {
    slist_of : slist nat;
    smapData : option (K -> option V);
    skeyOf : nat -> K;  svalOf : nat -> V;
    snext : nat }.

  (** the map's data and cells together with the entries [l] *)
  Definition cells (s : smap) (l : list nat) : emap K V := mkMap l (smapData s) (skeyOf s) (svalOf s) (snext s).
  Definition of_cells (sl : slist nat) (m : emap K V) : smap := mkSMap sl (mapData m) (keyOf m) (valOf m) (next m).

  (** estoremap.go:17-36: the callbacks of the list; [None] is the panic of the assertion [oldElem.(EMapEntry)]
      on the slice that estorelist.go:327 passes *)
  Definition didStore (s : smap) (m : option (option (K -> option V))) (c : scallback nat)
    : option (option (K -> option V)) :=
    match m with
    | None => None
    | Some m => match c with
                | CB c => Some (didCallback keqb (cells s []) m c)
                | DidRemoveSlice _ _ => None
                end
    end.

  (** an operation of the list; [None]: panic *)
  Definition slistStep (s : smap) (o : sop nat) : option (smap * res nat) :=
    match sstep Nat.eqb 0%nat unique (slist_of s) o with
    | Ret (sl, _, cb) r =>
        let? m := fold_left (didStore s) cb (Some (smapData s)) in
        Some (mkSMap sl m (skeyOf s) (svalOf s) (snext s), r)
    | Panic => None
    end.

  (** basicemap.go:71-79, with All of estorelist.go:429-449 *)
  Definition sgetEntryForKey (s : smap) (k : K) : option nat :=
    getEntryForKey keqb (cells s (toArray (slist_of s))) k.
  (** basicemap.go:159-167, with the iterator of elistiterator.go *)
  Definition sinitDataMap (s : smap) : option (K -> option V) :=
    match smapData s with
    | Some f => Some f
    | None => let? l := items 0%nat (slist_of s) in Some (initDataMap keqb (cells s l))
    end.
  Definition sinited (s : smap) (f : K -> option V) : smap :=
    mkSMap (slist_of s) (Some f) (skeyOf s) (svalOf s) (snext s).

  Inductive smop :=
  | SOn (o : sop nat)       (* an operation of the list, SetCache, SetEStore *)
  | SMap (o : mop K V)      (* an operation of the map, or on entries *).

  Definition smstep (s : smap) (o : smop) : option (smap * mres V) :=
    match o with
    (* estoremap.go:69-75: the map's data is dropped first *)
    | SOn (SetCache b) =>
        let? (s', r) := slistStep (mkSMap (slist_of s) None (skeyOf s) (svalOf s) (snext s)) (SetCache b) in
        Some (s', ROp r)
    (* estoremap.go:62-66 for SetEStore, which leaves the map's data *)
    | SOn o => let? (s', r) := slistStep s o in Some (s', ROp r)
    | SMap (MList o) => let? (s', r) := slistStep s (N (L o)) in Some (s', ROp r)
    (* estoremap.go:83-91 *)
    | SMap (MNew k v) => Some (of_cells (slist_of s) (newEntry (cells s []) k v), REntry (snext s))
    | SMap (MSetKey e k) =>
        Some (mkSMap (slist_of s) (smapData s) (cell (skeyOf s) e k) (svalOf s) (snext s), RNone)
    | SMap (MSetValue e v) =>
        Some (mkSMap (slist_of s) (smapData s) (skeyOf s) (cell (svalOf s) e v) (snext s), RNone)
    (* basicemap.go:88-99 *)
    | SMap (MPut k v) =>
        match sgetEntryForKey s k with
        | Some e =>
            Some (mkSMap (slist_of s) (option_map (fun f => mput keqb f k (Some v)) (smapData s))
                         (skeyOf s) (cell (svalOf s) e v) (snext s), RNone)
        | None =>
            let? (s', _) := slistStep (of_cells (slist_of s) (newEntry (cells s []) k v)) (N (L (Add (snext s)))) in
            Some (s', RNone)
        end
    (* basicemap.go:126-132 *)
    | SMap (MRemoveKey k) =>
        match sgetEntryForKey s k with
        | Some e => let? (s', _) := slistStep s (N (L (Remove e))) in Some (s', RVal (Some (svalOf s' e)))
        | None => Some (s, RVal None)
        end
    (* basicemap.go:81-86 *)
    | SMap (MGetValue k) => let? f := sinitDataMap s in Some (sinited s f, RVal (f k))
    (* basicemap.go:144-150 *)
    | SMap (MContainsKey k) =>
        let? f := sinitDataMap s in Some (sinited s f, RB (match f k with Some _ => true | None => false end))
    (* basicemap.go:134-142 *)
    | SMap (MContainsValue v) =>
        let? l := items 0%nat (slist_of s) in Some (s, RB (existsb (fun e => veqb (svalOf s e) v) l))
    end.

  (** estoremap.go:50-56, estorelist.go:41-56: a map over a store that holds the entries [st] already, with the
      keys and values [k] and [v]; [n] cells exist *)
  Definition NewEStoreMap (st : option (list nat)) (k : nat -> K) (v : nat -> V) (n : nat) : smap :=
    mkSMap (initialize st) None k v n.

  Fixpoint smrun (s : smap) (h : list smop) : option smap :=
    match h with [] => Some s | o :: h' => let? (s', _) := smstep s o in smrun s' h' end.
End StoreMapModel.
Arguments smap : clear implicits.
Arguments smop : clear implicits.

(** *** The locks of a map used by several goroutines *)
Inductive mutex := MapMutex | ListMutex.
Inductive lockop := Lock (m : mutex) | Unlock (m : mutex).

(** What a call does with the two mutexes, in order.  The recursive mutex may be taken again by its holder, which
    changes nothing for the others: nested sections of it are left out.  The queries of the list that a change makes
    first (its size, whether it contains the entry) are a [CScan] before it. *)
Inductive lockcall :=
| CGetValue (build : option nat)   (* basicemap.go:81-86; 144-150 and 152-157 are the same.  [Some n]: the map's data
                                      do not exist when the call has the map's mutex, and are built with [S n]
                                      queries of the list, lines 161-165 *)
| CAdd                          (* estorelist.go:186-207 with estoremap.go:17-20 and basicemap.go:169-175 *)
| CRemove                       (* estorelist.go:285-310 with estoremap.go:29-32 and basicemap.go:177-181 *)
| CClear                        (* estorelist.go:257-283 with estoremap.go:34-36 and basicemap.go:183-187 *)
| CScan (n : nat)               (* n times a query of the list: basicemap.go:71-79, 134-142 *)
| CPutExisting (n : nat).       (* basicemap.go:88-95, the key being found after n entries *)

(** a query of the list (Size, estorelist.go:473-477; Get, 385-398; IndexOf, 485-510) takes the list's mutex and
    gives it back *)
Fixpoint queries (n : nat) : list lockop :=
  match n with O => [] | S n' => Lock ListMutex :: Unlock ListMutex :: queries n' end.
Definition locking (c : lockcall) : list lockop :=
  match c with
  | CGetValue None => [Lock MapMutex; Unlock MapMutex]
  | CGetValue (Some n) => Lock MapMutex :: queries (S n) ++ [Unlock MapMutex]
  | CAdd | CRemove | CClear => [Lock ListMutex; Lock MapMutex; Unlock MapMutex; Unlock ListMutex]
  | CScan n => queries n
  | CPutExisting n => queries n ++ [Lock MapMutex; Unlock MapMutex]
  end.

(** the goroutines' remaining steps, and who holds each mutex *)
Record locks := mkLocks { todo : list (list lockop); holder : mutex -> option nat }.
Definition mutex_eqb (a b : mutex) : bool :=
  match a, b with MapMutex, MapMutex | ListMutex, ListMutex => true | _, _ => false end.
Definition set_holder (h : mutex -> option nat) (m : mutex) (x : option nat) : mutex -> option nat :=
  fun m' => if mutex_eqb m' m then x else h m'.
Fixpoint advance (l : list (list lockop)) (i : nat) : list (list lockop) :=
  match l, i with
  | [], _ => []
  | p :: l', O => tl p :: l'
  | p :: l', S i' => p :: advance l' i'
  end.
(** goroutine [i] takes its next step; Lock waits until the mutex is free *)
Inductive lockstep : locks -> locks -> Prop :=
| ls_lock s i m p : nth_error (todo s) i = Some (Lock m :: p) -> holder s m = None ->
    lockstep s (mkLocks (advance (todo s) i) (set_holder (holder s) m (Some i)))
| ls_unlock s i m p : nth_error (todo s) i = Some (Unlock m :: p) ->
    lockstep s (mkLocks (advance (todo s) i) (set_holder (holder s) m None)).
Inductive locksteps : locks -> locks -> Prop :=
| lss_refl s : locksteps s s
| lss_step s1 s2 s3 : locksteps s1 s2 -> lockstep s2 s3 -> locksteps s1 s3.
(** goroutines that make these calls, one after the other each *)
Definition goroutines (cs : list (list lockcall)) : locks :=
  mkLocks (map (fun c => concat (map locking c)) cs) (fun _ => None).
