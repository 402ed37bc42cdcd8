(** What a user of a store-backed list relies on: a sequence, whatever is cached. *)
From Verif Require Import Base ListModel ListSpec NotifyModel StoreListModel.

Section StoreListSpec.
  Context {A : Type} (eqb : A -> A -> bool).

  (** [holds s l]: cached data (if any), store (if any) and size all say that the contents are [l];
      without cached data there is a store *)
  Definition holds (s : slist A) (l : list A) : Prop :=
    (data s = Some l \/ (data s = None /\ store s = Some l /\ cache s = false))
    /\ (store s = None \/ store s = Some l)
    /\ size s = zlen l.

  (** the sequence after a call, and the result; caching and attaching a store change nothing *)
  Definition seq_step (unique : bool) (l : list A) (o : sop A) : option (list A * res A) :=
    match o with
    | N (L o) => spec_step eqb unique l o
    | N (AddWithNotification e) => Some (l ++ [e], RUnit)
    | N (RemoveWithNotification e) =>
        match first_pos eqb l e with
        | Some i => Some (delete_at i l, RUnit)
        | None => Some (l, RUnit)
        end
    | N (SetWithNotification i e) =>
        if valid i (zlen l) then Some (replace_at (Z.to_nat i) e l, RUnit) else None
    | SetCache _ => Some (l, RUnit)
    | SetEStore _ => Some (l, RUnit)
    end.

  (** Restrictions: bulk additions to a unique list as in [ListSpec.bulk_ok]; a non-unique list is not
      added to itself; a store attached later already has the contents; a store is not detached from an
      empty list. *)
  Definition sop_ok (unique : bool) (l : list A) (o : sop A) : Prop :=
    match o with
    | N (L (AddAll c)) | N (L (InsertAll _ c)) =>
        if unique then bulk_ok eqb l (elems l c) else c <> Self
    | SetEStore (Some t) => t = l
    | SetEStore None => l <> []
    | _ => True
    end.

  Fixpoint hist_ok (unique : bool) (l : list A) (ops : list (sop A)) : Prop :=
    match ops with
    | [] => True
    | o :: ops' =>
        sop_ok unique l o /\
        match seq_step unique l o with Some (l', _) => hist_ok unique l' ops' | None => True end
    end.

  Fixpoint seq_run (unique : bool) (l : list A) (ops : list (sop A)) : list (res A) * option (list A) :=
    match ops with
    | [] => ([], Some l)
    | o :: ops' =>
        match seq_step unique l o with
        | None => ([], None)
        | Some (l', r) => let '(rs, fin) := seq_run unique l' ops' in (r :: rs, fin)
        end
    end.

  (** the results of a history, and its outcome: a list with contents [l], or a panic *)
  Definition results {X Y} (h : list (res A * X * Y) * option (slist A)) : list (res A) :=
    map (fun '(r, _, _) => r) (fst h).
  Definition sent {X Y} (h : list (res A * list X * Y) * option (slist A)) : list X :=
    concat (map (fun '(_, ns, _) => ns) (fst h)).
  Definition ends {X} (h : X * option (slist A)) (l : option (list A)) : Prop :=
    match snd h, l with
    | Some s, Some l => holds s l
    | None, None => True
    | _, _ => False
    end.

  (** calls on which the callbacks of a list do not depend on the cache *)
  Definition same_callbacks (o : sop A) : Prop :=
    match o with
    | N (L (RemoveRange _ _)) | N (L (Move _ _)) | N (L (MoveObject _ _)) => False
    | SetEStore _ => False
    | _ => True
    end.

  (** the callbacks of a call *)
  Definition calls {X Y R} (o : outcome (X * Y * list (scallback A)) R) : option (list (scallback A)) :=
    match o with Ret (_, _, cb) _ => Some cb | Panic => None end.

  (** *** queries of a list of references: the sequence of resolved objects *)
  Section ProxySpec.
    Context (res : A -> A).
    Definition query_spec (l : list A) (q : query A) : option (ListModel.res A) :=
      match q with
      | QGet i => if valid i (zlen l) then option_map RElem (nth_error l (Z.to_nat i)) else None
      | QIndexOf e => Some (RInt (pos_res (first_pos eqb l e)))
      | QContains e => Some (RBool (member eqb e l))
      | QToArray => Some (RList l)
      | QSize => Some (RInt (zlen l))
      | QSetCache _ => Some RUnit
      end.
    Fixpoint queries_spec (l : list A) (qs : list (query A)) : option (list (ListModel.res A)) :=
      match qs with
      | [] => Some []
      | q :: qs' => let? r := query_spec l q in let? rs := queries_spec l qs' in Some (r :: rs)
      end.
    (** the object searched is not a proxy *)
    Definition resolved_query (q : query A) : Prop :=
      match q with QIndexOf e | QContains e => res e = e | _ => True end.
  End ProxySpec.

  (** *** single-valued features: a variable per feature *)
  Definition var_step (m : nat -> option (option A)) (c : oop A) : (nat -> option (option A)) * ores A :=
    match c with
    | OGet f => (m, OVal (match m (fid f) with Some v => v | None => None end))
    | OSet f v => ((fun k => if (k =? fid f)%nat then Some v else m k), OUnit)
    | OUnset f => ((fun k => if (k =? fid f)%nat then None else m k), OUnit)
    | OIsSet f => (m, OBool (match m (fid f) with Some _ => true | None => false end))
    | OSetCache _ => (m, OUnit)
    end.
  Fixpoint var_run (m : nat -> option (option A)) (cs : list (oop A)) : list (ores A) :=
    match cs with
    | [] => []
    | c :: cs' => let '(m', r) := var_step m c in r :: var_run m' cs'
    end.

  (** no transient feature is used *)
  Definition persistent (c : oop A) : Prop :=
    match c with
    | OGet f | OSet f _ | OUnset f | OIsSet f => transient f = false
    | OSetCache _ => True
    end.
End StoreListSpec.
