(** What an observer does with a notification, independent of the list implementation. *)
From Verif Require Import Base ListModel ListSpec NotifyModel.

Section NotifySpec.
  Context {A : Type}.

  (** strictly increasing positions, all smaller than [n] and at least [lo] *)
  Fixpoint increasing (lo : Z) (ps : list Z) (n : Z) : Prop :=
    match ps with
    | [] => True
    | p :: ps' => lo <= p < n /\ increasing (p + 1) ps' n
    end.

  (** remove from [s] (whose first element has index [i]) the elements at the positions [ps] *)
  Fixpoint remove_at_positions (i : Z) (s : list A) (ps : list Z) : list A :=
    match s with
    | [] => []
    | x :: s' => if existsb (Z.eqb i) ps then remove_at_positions (i + 1) s' ps
                 else x :: remove_at_positions (i + 1) s' ps
    end.

  (** [observes n s s']: a correct observer holding [s] accepts notification [n] and then holds [s'];
      the notification must be truthful about the positions and the old values. *)
  Inductive observes : notification A -> list A -> list A -> Prop :=
  | ObsAdd s x i : 0 <= i <= zlen s ->
      observes (Notif ADD PNil (PObj x) i) s (insert_at (Z.to_nat i) x s)
  | ObsAddMany s xs i : 0 <= i <= zlen s ->
      observes (Notif ADD_MANY PNil (PObjs xs) i) s (insert_all_at (Z.to_nat i) xs s)
  | ObsRemove s x i : 0 <= i -> nth_error s (Z.to_nat i) = Some x ->
      observes (Notif REMOVE (PObj x) PNil i) s (delete_at (Z.to_nat i) s)
  | ObsRemoveMany s xs ps i : increasing 0 ps (zlen s) -> length xs = length ps ->
      Forall2 (fun x p => nth_error s (Z.to_nat p) = Some x) xs ps ->
      observes (Notif REMOVE_MANY (PObjs xs) (PInts ps) i) s (remove_at_positions 0 s ps)
  | ObsClear s : observes (Notif REMOVE_MANY (PObjs s) PNil (-1)) s []
  | ObsSet s x y i : 0 <= i -> nth_error s (Z.to_nat i) = Some x ->
      observes (Notif SET (PObj x) (PObj y) i) s (replace_at (Z.to_nat i) y s)
  | ObsMove s x i j : 0 <= i -> nth_error s (Z.to_nat i) = Some x -> 0 <= j < zlen s ->
      observes (Notif MOVE (PInt i) (PObj x) j) s (move (Z.to_nat i) (Z.to_nat j) x s).

  Inductive observes_all : list (notification A) -> list A -> list A -> Prop :=
  | ObsNil s : observes_all [] s s
  | ObsCons n ns s s1 s2 : observes n s s1 -> observes_all ns s1 s2 -> observes_all (n :: ns) s s2.
End NotifySpec.

(** What an observer of a single-valued feature does: it knows the value and whether it is set. *)
Section SingleSpec.
  Context {A : Type}.
  Inductive observes1 : notification A -> payload A -> payload A -> Prop :=
  | Obs1Set x y i : observes1 (Notif SET x y i) x y
  | Obs1Unset x y i : observes1 (Notif UNSET x y i) x y.
  (** the same, tracking "is set" *)
  Inductive observes1s : notification A -> payload A * bool -> payload A * bool -> Prop :=
  | Obs1sSet x y i b : observes1s (Notif SET x y i) (x, b) (y, true)
  | Obs1sUnset x y i b : observes1s (Notif UNSET x y i) (x, b) (y, false).

  (** Pairs of list notifications whose merge is claimed meaningful by the partial theorem:
      two SETs must be about the same position, and a removal absorbed by a REMOVE_MANY must concern an
      element located after all those already removed. *)
  Definition merge_safe (n o : notification A) : Prop :=
    match evt n, evt o with
    | SET, SET => position n = position o
    | REMOVE_MANY, REMOVE =>
        exists ps, newValue n = PInts ps /\ Forall (fun p => p < position o + zlen ps) ps
    | _, _ => True
    end.
End SingleSpec.
