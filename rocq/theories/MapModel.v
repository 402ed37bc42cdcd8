(** Model of ecore/basicemap.go: a list of entries with a lazily built map from keys to values.

    Entries are heap cells numbered in order of creation; keys and values are compared with Go's [==],
    modelled by decidable equalities.  The list is the unique array list of [ListModel], whose callbacks
    update the map.  A missing value is [None], Go's nil. *)
From Verif Require Import Base ListModel.

Section MapModel.
  Context {K V : Type} (keqb : K -> K -> bool) (veqb : V -> V -> bool).

  (** basicemap.go:14-37, 101-104 *)
  Record emap := mkMap {
    elist : list nat;                       (* the entries *)
    mapData : option (K -> option V);       (* [None] is the nil map *)
    keyOf : nat -> K;  valOf : nat -> V;    (* the entry cells *)
    next : nat }.                           (* next cell *)

  Definition mput (m : K -> option V) (k : K) (v : option V) : K -> option V :=
    fun k' => if keqb k' k then v else m k'.
  Definition cell {X} (f : nat -> X) (e : nat) (x : X) : nat -> X := fun e' => if Nat.eqb e' e then x else f e'.

  (** basicemap.go:169-187 and the callbacks of basicemap.go:39-58; [delete] on a nil map does nothing *)
  Definition doAddEntry (s : emap) (m : option (K -> option V)) (e : nat) : option (K -> option V) :=
    option_map (fun f => mput f (keyOf s e) (Some (valOf s e))) m.
  Definition doRemoveEntry (s : emap) (m : option (K -> option V)) (e : nat) : option (K -> option V) :=
    option_map (fun f => mput f (keyOf s e) None) m.
  Definition didCallback (s : emap) (m : option (K -> option V)) (c : callback nat) : option (K -> option V) :=
    match c with
    | DidAdd _ e => doAddEntry s m e
    | DidSet _ e old => doAddEntry s (doRemoveEntry s m old) e
    | DidRemove _ old => doRemoveEntry s m old
    | DidClear _ => None
    | _ => m
    end.

  (** basicemap.go:159-167 *)
  Definition initDataMap (s : emap) : K -> option V :=
    match mapData s with
    | Some f => f
    | None => fold_left (fun f e => mput f (keyOf s e) (Some (valOf s e))) (elist s) (fun _ => None)
    end.
  Definition inited (s : emap) : emap := mkMap (elist s) (Some (initDataMap s)) (keyOf s) (valOf s) (next s).

  (** basicemap.go:71-79 *)
  Definition getEntryForKey (s : emap) (k : K) : option nat := find (fun e => keqb (keyOf s e) k) (elist s).

  (** operations of the list part, through abstractelist.go; [None]: panic *)
  Definition listStep (s : emap) (o : op nat) : option (emap * res nat) :=
    match step Nat.eqb 0%nat true (elist s) o with
    | Ret (d, cb) r => Some (mkMap d (fold_left (didCallback s) cb (mapData s)) (keyOf s) (valOf s) (next s), r)
    | Panic => None
    end.

  (** basicemap.go:122-124 *)
  Definition newEntry (s : emap) (k : K) (v : V) : emap :=
    mkMap (elist s) (mapData s) (cell (keyOf s) (next s) k) (cell (valOf s) (next s) v) (S (next s)).

  Inductive mop :=
  | MList (o : op nat)                               (* a list operation *)
  | MNew (k : K) (v : V)                             (* the program creates an entry *)
  | MSetKey (e : nat) (k : K) | MSetValue (e : nat) (v : V)   (* the program modifies an entry *)
  | MPut (k : K) (v : V) | MRemoveKey (k : K)
  | MGetValue (k : K) | MContainsKey (k : K) | MContainsValue (v : V).
  Inductive mres := ROp (r : res nat) | REntry (e : nat) | RVal (v : option V) | RB (b : bool) | RNone.

  Definition mstep (s : emap) (o : mop) : option (emap * mres) :=
    match o with
    | MList l => let? (s', r) := listStep s l in Some (s', ROp r)
    | MNew k v => Some (newEntry s k v, REntry (next s))
    (* basicemap.go:106-120 *)
    | MSetKey e k => Some (mkMap (elist s) (mapData s) (cell (keyOf s) e k) (valOf s) (next s), RNone)
    | MSetValue e v => Some (mkMap (elist s) (mapData s) (keyOf s) (cell (valOf s) e v) (next s), RNone)
    (* basicemap.go:88-99 *)
    | MPut k v =>
        match getEntryForKey s k with
        | Some e =>
            Some (mkMap (elist s) (option_map (fun f => mput f k (Some v)) (mapData s)) (keyOf s) (cell (valOf s) e v) (next s), RNone)
        | None => let? (s', _) := listStep (newEntry s k v) (Add (next s)) in Some (s', RNone)
        end
    (* basicemap.go:126-132 *)
    | MRemoveKey k =>
        match getEntryForKey s k with
        | Some e => let? (s', _) := listStep s (Remove e) in Some (s', RVal (Some (valOf s' e)))
        | None => Some (s, RVal None)
        end
    (* basicemap.go:81-86 *)
    | MGetValue k => Some (inited s, RVal (initDataMap s k))
    (* basicemap.go:144-150 *)
    | MContainsKey k => Some (inited s, RB (match initDataMap s k with Some _ => true | None => false end))
    (* basicemap.go:134-142 *)
    | MContainsValue v => Some (s, RB (existsb (fun e => veqb (valOf s e) v) (elist s)))
    end.

  (** basicemap.go:60-65; cells hold arbitrary contents before they are created *)
  Definition NewBasicEMap (k0 : K) (v0 : V) : emap := mkMap [] None (fun _ => k0) (fun _ => v0) O.

  Fixpoint mrun (s : emap) (h : list mop) : option emap :=
    match h with [] => Some s | o :: h' => let? (s', _) := mstep s o in mrun s' h' end.
End MapModel.
Arguments emap : clear implicits.
Arguments mop : clear implicits.
Arguments mres : clear implicits.
