(** What the properties of slices talk about: the contents of lists and variables, and what one list
    does alone. *)
From Verif Require Import Base ListModel SliceModel.

Section Spec.
  Context {A : Type} (eqb : A -> A -> bool) (nilv : A) (grow : nat -> nat -> nat).

  (** what Get(0), Get(1), ... would return *)
  Definition contentsOf (w : world A) (h : nat) : option (list A) :=
    match lists w h with Some (s, _) => Some (read (memory w) s) | None => None end.
  Definition uniqueOf (w : world A) (h : nat) : bool :=
    match lists w h with Some (_, u) => u | None => false end.
  (** v[0], v[1], ... *)
  Definition valueOf (w : world A) (v : nat) : list A := read (memory w) (vars w v).

  (** the call of [ListModel]: the argument by its contents *)
  Definition plain (w : world A) (h : nat) (o : hop A nat) : op A :=
    let arg c := if Nat.eqb c h then Self else Ext (match contentsOf w c with Some l => l | None => [] end) in
    match o with
    | HAdd e => Add e | HAddAll c => AddAll (arg c) | HInsert i e => Insert i e | HInsertAll i c => InsertAll i (arg c)
    | HMoveObject i e => MoveObject i e | HMove i j => Move i j | HRemoveAt i => RemoveAt i | HRemove e => Remove e
    | HRemoveRange i j => RemoveRange i j | HRemoveAll c => RemoveAll (arg c) | HGet i => Get i | HSet i e => SetAt i e
    | HClear => Clear | HSize => Size | HEmpty => Empty | HContains e => Contains e | HIndexOf e => IndexOf e
    end.
  Definition names (o : hop A nat) : list nat :=
    match o with HAddAll c | HInsertAll _ c | HRemoveAll c => [c] | _ => [] end.

  (** no cell of memory belongs to both, spare capacity included *)
  Definition disjoint (s t : slice) : Prop :=
    arr s <> arr t \/ (off s + cap s <= off t)%nat \/ (off t + cap t <= off s)%nat.
  (** a list is made of a slice that no other list uses *)
  Definition fair (w : world A) (o : wop A) : Prop :=
    match o with
    | NewFrom h _ v => forall h' s u, h' <> h -> lists w h' = Some (s, u) -> disjoint (vars w v) s
    | Call h o => forall c, In c (names o) -> lists w c <> None
    | _ => True
    end.
  Inductive reachW : world A -> Prop :=
  | r_start : reachW start
  | r_step w o w' r : reachW w -> fair w o -> wstep eqb nilv grow w o = Some (w', r) -> reachW w'.

  (** calls of [h] that only look at it, add at its end or empty it *)
  Definition appends (o : hop A nat) : bool :=
    match o with
    | HAdd _ | HAddAll _ | HClear | HGet _ | HSize | HEmpty | HContains _ | HIndexOf _ => true
    | HInsert _ _ | HInsertAll _ _ | HMoveObject _ _ | HMove _ _ | HRemoveAt _ | HRemove _ | HRemoveRange _ _ | HRemoveAll _ | HSet _ _ => false
    end.
  (** what may change the value of a slice taken from [h]: other calls of [h], and a list made of a
      variable that shares its memory *)
  Definition disturbs (w : world A) (v h : nat) (o : wop A) : Prop :=
    match o with
    | Call h' o => h' = h /\ appends o = false
    | NewFrom _ _ v' => ~ disjoint (vars w v) (vars w v')
    | _ => False
    end.
  (** what changes the variable itself *)
  Definition assigns (v : nat) (o : wop A) : Prop :=
    match o with Make v' _ _ | Take v' _ => v' = v | _ => False end.
  Inductive quietly (v h : nat) : world A -> world A -> Prop :=
  | q_refl w : quietly v h w w
  | q_step w o w1 r w2 : fair w o -> ~ disturbs w v h o -> ~ assigns v o -> wstep eqb nilv grow w o = Some (w1, r) ->
      quietly v h w1 w2 -> quietly v h w w2.
  (** a program, run *)
  Fixpoint runW (w : world A) (ops : list (wop A)) : option (world A) :=
    match ops with [] => Some w | o :: ops' => let? (w', _) := wstep eqb nilv grow w o in runW w' ops' end.
End Spec.
