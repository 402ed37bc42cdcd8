(** What a user of a store-backed map relies on: the pairs of its entries, whatever is cached. *)
From Verif Require Import Base ListModel ListSpec NotifyModel StoreListModel StoreListSpec MapModel MapSpec StoreMapModel.

Section StoreMapSpec.
  Context {K V : Type} (keqb : K -> K -> bool) (veqb : V -> V -> bool) (unique : bool).

  (** the entries, as ToArray gives them, and their pairs *)
  Definition contents (s : smap K V) : list nat := toArray (slist_of s).
  Definition pairs (s : smap K V) : list (K * V) := map (fun e => (skeyOf s e, svalOf s e)) (contents s).

  (** the list operation of a call *)
  Definition listop (o : smop K V) : option (sop nat) :=
    match o with
    | SOn o => Some o
    | SMap (MList o) => Some (N (L o))
    | SMap _ => None
    end.

  (** RemoveRange is used on a list with cached data, or on an empty range *)
  Definition range_ok (s : smap K V) (o : sop nat) : Prop :=
    match o with
    | N (L (RemoveRange i j)) => data (slist_of s) <> None \/ i = j
    | _ => True
    end.

  (** As for [MapSpec.disciplined_op], and the list is used within the limits of [StoreListSpec.sop_ok]. *)
  Definition sdisciplined_op (s : smap K V) (o : smop K V) : Prop :=
    match listop o with
    | Some l => sop_ok Nat.eqb unique (contents s) l /\ range_ok s l /\
                forall s' r, smstep keqb veqb unique s o = Some (s', r) ->
                             NoDup (map fst (pairs s')) /\ (forall e, In e (contents s') -> (e < snext s)%nat)
    | None => match o with
              | SMap (MSetKey e _) | SMap (MSetValue e _) => ~ In e (contents s)
              | _ => True
              end
    end.
  Fixpoint sdisciplined (s : smap K V) (h : list (smop K V)) : Prop :=
    match h with
    | [] => True
    | o :: h' => sdisciplined_op s o /\
                 match smstep keqb veqb unique s o with Some (s', _) => sdisciplined s' h' | None => True end
    end.

  (** the entries a store has at first were created and have distinct keys *)
  Definition start_ok (st : option (list nat)) (k : nat -> K) (n : nat) : Prop :=
    match st with
    | Some t => NoDup (map k t) /\ forall e, In e t -> (e < n)%nat
    | None => True
    end.

  (** the pairs and the answers of the map's operations *)
  Definition smap_spec (l : list (K * V)) (o : smop K V) : option (list (K * V) * mres V) :=
    match o with
    | SMap o => map_spec keqb veqb l o
    | SOn (SetCache _) | SOn (SetEStore _) => Some (l, ROp RUnit)
    | SOn (N _) => None
    end.
End StoreMapSpec.

(** *** locks *)
(** every goroutine is done or waits *)
Definition stuck (s : locks) : Prop := forall s', ~ lockstep s s'.
Definition finished (s : locks) : Prop := forall p, In p (todo s) -> p = [].
Definition deadlocks (cs : list (list lockcall)) : Prop :=
  exists s, locksteps (goroutines cs) s /\ stuck s /\ ~ finished s.
(** the calls that add to, remove from or clear the list *)
Definition changes (c : lockcall) : Prop :=
  match c with CAdd | CRemove | CClear => True | _ => False end.
(** the lookups that build the map's data *)
Definition builds (c : lockcall) : Prop :=
  match c with CGetValue (Some _) => True | _ => False end.
