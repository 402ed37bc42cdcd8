(** Specification of attributes: variables. *)
From Verif Require Import Base DynModel.

Section Spec.
  Context {D : Type} (many : nat -> bool) (default : nat -> option D).

  (** variables: one for each object and feature, and lists of elements with an owner *)
  Record memory := mkM {
    var : nat -> nat -> value D;
    list_of : nat -> nat * nat * list D;          (* owner, feature, elements *)
    next : nat;
    log : list (note D) }.
  (** the features of the class of an object, and who is observed *)
  Context (has : nat -> list nat) (watched : nat -> bool).

  Inductive call := Get (o f : nat) | Set_ (o f : nat) (v : value D) | IsSet (o f : nat) | Unset (o f : nat) | Edit (l : nat) (g : list D -> list D).
  Inductive answer := Value (v : value D) | Flag (b : bool) | Done | Failed.

  Definition assign (o f : nat) (v : value D) (m : memory) : memory :=
    mkM (fun o' f' => if Nat.eqb o' o && Nat.eqb f' f then v else var m o' f') (list_of m) (next m) (log m).
  Definition tell (o : nat) (n : note D) (m : memory) : memory :=
    if watched o then mkM (var m) (list_of m) (next m) (log m ++ [n]) else m.
  Definition known (o f : nat) : bool := existsb (Nat.eqb f) (has o).
  (** a feature that has never been given a value has its default value; the first look at a list makes it *)
  Definition ideal (k : call) (m : memory) : memory * answer :=
    match k with
    | Get o f =>
        if known o f then
          match var m o f with
          | Nil => if many f then
                     (assign o f (Lst (next m)) (mkM (var m) (fun l => if Nat.eqb l (next m) then (o, f, []) else list_of m l) (next m + 1) (log m)), Value (Lst (next m)))
                   else (m, Value (match default f with Some d => Data d | None => Nil end))
          | v => (m, Value v)
          end
        else (m, Failed)
    | Set_ o f v => if known o f then (tell o (mkN SET o (Some f) (var m o f) v) (assign o f v m), Done) else (m, Failed)
    | Unset o f => if known o f then (tell o (mkN UNSET o (Some f) (var m o f) Nil) (assign o f Nil m), Done) else (m, Failed)
    | IsSet o f => if known o f then (m, Flag (match var m o f with Nil => false | _ => true end)) else (m, Failed)
    | Edit l g =>
        if (next m <=? l)%nat then (m, Failed) else
        let '(o, f, es) := list_of m l in
        (tell o (mkN EDIT o (Some f) (Lst l) (Lst l)) (mkM (var m) (fun l' => if Nat.eqb l' l then (o, f, g es) else list_of m l') (next m) (log m)), Done)
    end.
  Fixpoint ideal_run (ks : list call) (m : memory) : memory * list answer :=
    match ks with [] => (m, []) | k :: ks' => let '(m1, a) := ideal k m in let '(m2, l) := ideal_run ks' m1 in (m2, a :: l) end.

  (** the calls of the code; a panic is answered with [Failed] and leaves the world as it was; there is no call on a list that
      has not been made *)
  Definition real (k : call) (w : world D) : world D * answer :=
    match k with
    | Get o f => match eGet many default w o f with Some (w', v) => (w', Value v) | None => (w, Failed) end
    | Set_ o f v => match eSet w o f v with Some w' => (w', Done) | None => (w, Failed) end
    | Unset o f => match eUnset w o f with Some w' => (w', Done) | None => (w, Failed) end
    | IsSet o f => match eIsSet w o f with Some (w', b) => (w', Flag b) | None => (w, Failed) end
    | Edit l g => if (fresh w <=? l)%nat then (w, Failed) else (edit w l g, Done)
    end.
  Fixpoint real_run (ks : list call) (w : world D) : world D * list answer :=
    match ks with [] => (w, []) | k :: ks' => let '(w1, a) := real k w in let '(w2, l) := real_run ks' w1 in (w2, a :: l) end.
End Spec.
Arguments memory : clear implicits.
Arguments call : clear implicits.
Arguments answer : clear implicits.

Section Worlds.
  Context {D : Type}.
  (** the numbers of the features of a class are their positions *)
  Definition numbered (w : world D) : Prop := forall c f, In f (features w c) -> nth_error (features w c) (fid w f) = Some f.
  (** the slices of objects are as long as their class has features; lists belong to objects that have the feature *)
  Definition sized (w : world D) : Prop := forall o,
    match properties (objects w o) with Some l => length l = length (features w (class (objects w o))) | None => reflective (objects w o) = true end.
  (** what the slices say about a feature *)
  Definition stored (w : world D) (o f : nat) : value D :=
    match properties (objects w o) with Some l => nth (fid w f) l Nil | None => Nil end.
  (** the memory has what the world has *)
  Record agrees (w : world D) (m : memory D) : Prop := {
    agrees_values : forall o f, In f (features w (class (objects w o))) -> var m o f = stored w o f;
    agrees_lists : forall l, (l < next m)%nat -> exists f, list_of m l = (owner (lists w l), f, elements (lists w l)) /\
      number (lists w l) = fid w f /\ In f (features w (class (objects w (owner (lists w l)))));
    agrees_next : next m = fresh w;
    agrees_log : log m = sent w }.
  (** a call on the feature of the object *)
  Definition on (o f : nat) (k : call D) : Prop :=
    match k with Get o' f' | Set_ o' f' _ | IsSet o' f' | Unset o' f' => o' = o /\ f' = f | Edit _ _ => False end.
  Definition has_of (w : world D) (o : nat) : list nat := features w (class (objects w o)).
  Definition watched_of (w : world D) (o : nat) : bool := observed (objects w o).
End Worlds.
