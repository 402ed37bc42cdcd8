(** A map is the partial function denoted by its list of key-value pairs. *)
From Verif Require Import Base ListModel MapModel.

Section MapSpec.
  Context {K V : Type} (keqb : K -> K -> bool) (veqb : V -> V -> bool).

  (** what the entry list says *)
  Definition view (s : emap K V) : list (K * V) := map (fun e => (keyOf s e, valOf s e)) (elist s).

  Definition lookup (k : K) (l : list (K * V)) : option V :=
    option_map snd (find (fun p => keqb (fst p) k) l).
  (** replace in place, or add at the end *)
  Definition assign (k : K) (v : V) (l : list (K * V)) : list (K * V) :=
    if existsb (fun p => keqb (fst p) k) l
    then map (fun p => if keqb (fst p) k then (k, v) else p) l
    else l ++ [(k, v)].
  Definition erase (k : K) (l : list (K * V)) : list (K * V) := filter (fun p => negb (keqb (fst p) k)) l.

  (** the effect on the pairs and the answer of the map operations *)
  Definition map_spec (l : list (K * V)) (o : mop K V) : option (list (K * V) * mres V) :=
    match o with
    | MPut k v => Some (assign k v l, RNone)
    | MRemoveKey k => Some (erase k l, RVal (lookup k l))
    | MGetValue k => Some (l, RVal (lookup k l))
    | MContainsKey k => Some (l, RB (match lookup k l with Some _ => true | None => false end))
    | MContainsValue v => Some (l, RB (existsb (fun p => veqb (snd p) v) l))
    | _ => None
    end.

  (** The program keeps keys distinct when it handles entries itself, uses entries it created, and does not
      modify entries that are in the map. *)
  Definition disciplined_op (s : emap K V) (o : mop K V) : Prop :=
    match o with
    | MList l => forall s' r, listStep keqb s l = Some (s', r) ->
                              NoDup (map fst (view s')) /\ (forall e, In e (elist s') -> (e < next s)%nat)
    | MSetKey e _ | MSetValue e _ => ~ In e (elist s)
    | _ => True
    end.
  Fixpoint disciplined (s : emap K V) (h : list (mop K V)) : Prop :=
    match h with
    | [] => True
    | o :: h' => disciplined_op s o /\
                 match mstep keqb veqb s o with Some (s', _) => disciplined s' h' | None => True end
    end.
End MapSpec.
