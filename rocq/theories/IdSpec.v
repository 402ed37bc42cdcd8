(** What ids are relied on for, stated on the answers of GetID, GetEObject and GetDetachedID. *)
From Verif Require Import Base IdModel.

Section Answers.
  Context {I : Type}.
  Variables (hasId : nat -> option I) (resolve : I -> option nat).
  (** an id leads back to the object that has it *)
  Definition ids_resolve := forall o i, hasId o = Some i -> resolve i = Some o.
  (** no id is shared *)
  Definition ids_unique := forall o o' i, hasId o = Some i -> hasId o' = Some i -> o = o'.
  (** an id leads only to an object that has it *)
  Definition resolution_sound := forall o i, resolve i = Some o -> hasId o = Some i.
End Answers.

Section Considerate.
  Context {I A G P : Type} (ieqb : I -> I -> bool) (peqb : P -> P -> bool)
    (newID : G -> I * G) (isValidID : I -> bool) (getID : A -> option I) (setID : I -> G -> G) (ptr : nat -> P).
  (** nobody but [o] has the id [i], or would get it back by being registered again *)
  Definition free_for (m : mgr I G P) (o : nat) (i : I) : Prop :=
    (forall o', GetID m o' = Some i -> o' = o) /\ (forall o', GetDetachedID ptr m o' = Some i -> o' = o).

  (** the caller never assigns an id that belongs to another object *)
  Fixpoint considerate (m : mgr I G P) (h : list (idop A)) : Prop :=
    match h with
    | [] => True
    | op :: h' =>
        match op with OSetID o a => forall i, getID a = Some i -> free_for m o i | _ => True end /\
        considerate (istep ieqb peqb newID isValidID getID setID ptr m op) h'
    end.

  (** the generator never produces an id that belongs to an object *)
  Fixpoint generator_fresh (m : mgr I G P) (h : list (idop A)) : Prop :=
    match h with
    | [] => True
    | op :: h' =>
        match op with ORegister o => free_for m o (fst (newID (gen m))) | _ => True end /\
        generator_fresh (istep ieqb peqb newID isValidID getID setID ptr m op) h'
    end.

  (** the operation is not about [o] *)
  Definition about_others (o : nat) (op : idop A) : Prop :=
    match op with
    | ORegister o' | OUnRegister o' | OSetID o' _ => o' <> o
    | OClear => False
    end.
End Considerate.

(** int64 is large enough for the history: all ids assigned by the program and all generated ones fit *)
Definition no_overflow (h : list (idop goval)) : Prop :=
  exists M, 0 <= M /\ (forall o a i, In (OSetID o a) h -> inc_getID a = Some i -> i < M) /\ M + zlen h < 2 ^ 63.

Section ConsiderateAttr.
  Context {S : Type} (seqb : S -> S -> bool) (hasID : nat -> bool).
  (** no other object registered under [i] *)
  Definition ofree (m : omgr (S:=S)) (o : nat) (i : S) : Prop := forall o', oGetID m o' = Some i -> o' = o.
  (** the program keeps id attributes distinct among registered objects, and changes the attribute of a
      registered object only through the manager *)
  Fixpoint oconsiderate (m : omgr (S:=S)) (h : list (oop S)) : Prop :=
    match h with
    | [] => True
    | op :: h' =>
        match op with
        | OORegister o => forall i, attr m o = Some i -> ofree m o i
        | OOSetID o (Some i) => ofree m o i
        | OAttr o i => oGetID m o = None
        | _ => True
        end /\
        match ostep seqb hasID m op with Some m' => oconsiderate m' h' | None => True end
    end.
End ConsiderateAttr.
