(** What a user of an object with a store relies on: a record of variables and sequences, which the store keeps. *)
From Verif Require Import Base ListModel ListSpec NotifyModel StoreListModel StoreListSpec StoreObjModel.

Section StoreObjSpec.
  Context {A : Type} (eqb : A -> A -> bool) (kind : nat -> fkind).

  (** the values of the single-valued features, the contents of the others *)
  Record contents := Cts { val_of : nat -> option A; seq_of : nat -> list A }.
  Definition set_at {X} (m : nat -> X) (f : nat) (v : X) : nat -> X := fun g => if (g =? f)%nat then v else m g.

  (** a call on a record; lists are known by what they answer, not by their identity *)
  Definition rec_step (r : contents) (o : wop A) : option (contents * wres A) :=
    match o with
    | WGet f => match kind f with
                | Many _ => Some (r, WList 0)
                | Single _ => Some (r, WVal (val_of r f))
                end
    | WSet f v => Some (Cts (set_at (val_of r) f v) (seq_of r), WUnit)
    | WUnset f => match kind f with
                  | Many _ => Some (Cts (val_of r) (set_at (seq_of r) f []), WUnit)
                  | Single _ => Some (Cts (set_at (val_of r) f None) (seq_of r), WUnit)
                  end
    | WIsSet f => Some (r, WBool (match val_of r f with Some _ => true | None => false end))
    | WSetCache _ | WSetEStore _ => Some (r, WUnit)
    | WOn _ _ => None
    | WVia f o => match kind f with
                  | Many unique =>
                      let? (l, x) := seq_step eqb unique (seq_of r f) (N o) in
                      Some (Cts (val_of r) (set_at (seq_of r) f l), WRes x)
                  | Single _ => None
                  end
    end.
  Definition observed (r : wres A) : wres A := match r with WList _ => WList 0 | r => r end.
  Fixpoint rec_run (r : contents) (h : list (wop A)) : list (wres A) * option contents :=
    match h with
    | [] => ([], Some r)
    | o :: h' => match rec_step r o with
                 | None => ([], None)
                 | Some (r', x) => let '(xs, fin) := rec_run r' h' in (x :: xs, fin)
                 end
    end.

  (** persistent features; lists are read from the object for each call on them; bulk additions as in C75; the
      store stays the same; IsSet is asked for single values *)
  Definition allowed (r : contents) (o : wop A) : Prop :=
    match o with
    | WGet f | WUnset f => kind f <> Single true
    | WSet f _ | WIsSet f => kind f = Single false
    | WSetCache _ => True
    | WSetEStore _ | WOn _ _ => False
    | WVia f o => match kind f with
                  | Many unique => sop_ok eqb unique (seq_of r f) (N o)
                  | Single _ => False
                  end
    end.
  Fixpoint all_allowed (r : contents) (h : list (wop A)) : Prop :=
    match h with
    | [] => True
    | o :: h' => allowed r o /\ match rec_step r o with Some (r', _) => all_allowed r' h' | None => True end
    end.

  (** the store [s] has these contents *)
  Definition stores (w : world A) (s : nat) (r : contents) : Prop :=
    forall f, match kind f with
              | Single true => True
              | Single false => values w s f = val_of r f
              | Many _ => lists w s f = seq_of r f
              end.

  (** what the object shows for a feature: its value, or the elements of its list *)
  Definition shown (nilv : A) (w : world A) (f : nat) : option (wres A) :=
    match kind f with
    | Many _ => option_map snd (wstep eqb nilv kind w (WVia f (L ToArray)))
    | Single _ => option_map snd (wstep eqb nilv kind w (WGet f))
    end.
  (** what a store has for the feature *)
  Definition kept (w : world A) (s f : nat) : option (wres A) :=
    match kind f with
    | Many _ => Some (WRes (RList (lists w s f)))
    | Single _ => Some (WVal (values w s f))
    end.
  (** nothing in the store for the feature *)
  Definition nothing (w : world A) (s f : nat) : Prop :=
    match kind f with Many _ => lists w s f = [] | Single _ => values w s f = None end.
  (** the object itself has something for the feature *)
  Definition loaded (w : world A) (f : nat) : Prop := wprops w f <> None.

  (** calls after which the list of a feature is another one *)
  Definition replaces (w : world A) (f : nat) (o : wop A) : Prop :=
    match o with
    | WSet g _ | WUnset g => g = f
    | WSetCache c => c <> wcache w /\ wstore w <> None
    | WSetEStore (Some s) => wcache w = false /\ wstore w <> Some s
    | _ => False
    end.
  (** the feature's list is number [i] *)
  Definition list_of (nilv : A) (w : world A) (f i : nat) : Prop :=
    wstep eqb nilv kind w (WGet f) = Some (w, WList i).
End StoreObjSpec.
Arguments contents : clear implicits.

(** *** The container *)
Section ContainerSpec.
  Context (classOf : nat -> nat) (allFeatures : nat -> list nat) (opposite : nat -> option nat) (x : nat).

  (** [x] is in the feature [f] of [c], which its container feature id [id] tells *)
  Definition refers (c : nat) (id : Z) (f : nat) : Prop :=
    (id < 0 /\ nth_error (allFeatures (classOf c)) (Z.to_nat (-1 - id)) = Some f /\ opposite f = None)
    \/ (0 <= id /\ exists g, nth_error (allFeatures (classOf x)) (Z.to_nat id) = Some g
                             /\ opposite g = Some f /\ opposite f = Some g).

  (** a container and the id that belongs to it *)
  Definition proper (p : option nat * Z) : Prop :=
    match fst p with
    | None => snd p = -1
    | Some c => exists f, refers c (snd p) f
    end.
  (** what a store says is about the container [p] *)
  Definition tells (st : stored_container) (p : option nat * Z) : Prop :=
    match fst p, st with
    | None, (None, None) => snd p = -1
    | Some c, (Some c', Some f) => c = c' /\ refers c (snd p) f
    | _, _ => False
    end.

  Inductive cop := CSet (c : option nat) (id : Z) | CGet | CSetEStore (s : option nat).
  Definition cstep (o : cobject) (c : cop) : option (cobject * option (option nat * Z)) :=
    match c with
    | CSet c id => let? o' := cSet classOf allFeatures opposite x o c id in Some (o', None)
    | CGet => let '(o', p) := cGet classOf allFeatures opposite x o in Some (o', Some p)
    | CSetEStore s => let? o' := cSetEStore classOf allFeatures opposite x o s in Some (o', None)
    end.
  Fixpoint crun (o : cobject) (h : list cop) : option (cobject * list (option nat * Z)) :=
    match h with
    | [] => Some (o, [])
    | c :: h' => let? (o', p) := cstep o c in
                 let? (o'', ps) := crun o' h' in
                 Some (o'', match p with Some p => p :: ps | None => ps end)
    end.

  (** a variable, the container being [p] at first *)
  Fixpoint var_reads (p : option nat * Z) (h : list cop) : list (option nat * Z) * (option nat * Z) :=
    match h with
    | [] => ([], p)
    | CSet c id :: h' => var_reads (c, id) h'
    | CGet :: h' => let '(ps, q) := var_reads p h' in (p :: ps, q)
    | CSetEStore _ :: h' => var_reads p h'
    end.
  (** containers come with the id that belongs to them; the store is not changed before the container has been read
      or set *)
  Fixpoint careful (known : bool) (h : list cop) : Prop :=
    match h with
    | [] => True
    | CSet c id :: h' => proper (c, id) /\ careful true h'
    | CGet :: h' => careful true h'
    | CSetEStore _ :: h' => known = true /\ careful true h'
    end.
End ContainerSpec.
