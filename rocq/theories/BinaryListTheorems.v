(** C19, C80: reference lists read by the binary decoder.

    [E] is what the list held when the reference is read (its objects added through their own
    references), [objects] the decoded objects.  In a list with an opposite there is no nil and no
    repetition, and what was added through opposites is among the decoded objects. *)
From Coq Require Import Permutation.
From Verif Require Import Base ListModel BinaryListModel BinaryListProofs.

(** C19 in full: the list is exactly the encoded list. *)
Definition C19_statement : Prop :=
  forall (A : Type) (eqb : A -> A -> bool) (nilv : A), (forall x y, reflect (x = y) (eqb x y)) ->
  forall E objects, NoDup E -> NoDup objects -> ~ In nilv objects -> (forall x, In x E -> In x objects) ->
  reconcile eqb nilv true E objects = Some objects.

(** The first object is there already, the two others are not: the last one ends up first. *)
Theorem C19_refuted :
  reconcile Z.eqb 0 true [1] [1; 2; 3] = Some [3; 1; 2].
Proof. vm_compute. reflexivity. Qed.
Print Assumptions C19_refuted.

Theorem C19_statement_refuted : ~ C19_statement.
Proof.
  intro H. assert (Hr : forall x y, reflect (x = y) (Z.eqb x y)) by exact Z.eqb_spec.
  specialize (H Z Z.eqb 0 Hr [1] [1; 2; 3]). rewrite C19_refuted in H.
  assert (Some [3; 1; 2] = Some [1; 2; 3]); [|discriminate]. apply H.
  - repeat constructor; cbn; intuition discriminate.
  - repeat constructor; cbn; intuition discriminate.
  - cbn. intuition discriminate.
  - cbn. intuition.
Qed.
Print Assumptions C19_statement_refuted.

(** What is left: the list is right when nothing or everything was already there. *)
Theorem C19_partial : forall (A : Type) (eqb : A -> A -> bool) (nilv : A), (forall x y, reflect (x = y) (eqb x y)) ->
  forall E objects, NoDup E -> NoDup objects -> ~ In nilv objects -> (forall x, In x E -> In x objects) ->
  E = [] \/ (forall x, In x objects -> In x E) ->
  reconcile eqb nilv true E objects = Some objects.
Proof.
  intros A eqb nilv Hr E objects HE Ho Hn Hin [->|Hall].
  - apply (reconcile_none eqb nilv Hr). auto.
  - apply (reconcile_all eqb nilv Hr); auto. intro x. split; auto.
Qed.
Print Assumptions C19_partial.

Example C19_example_all : reconcile Z.eqb 0 true [3; 1; 2] [1; 2; 3] = Some [1; 2; 3].
Proof. vm_compute. reflexivity. Qed.
Example C19_example_none : reconcile Z.eqb 0 true [] [1; 2; 3] = Some [1; 2; 3].
Proof. vm_compute. reflexivity. Qed.

(** C80: the decoded list always holds exactly the encoded objects, each once; it is in the encoded order
    exactly when nothing or everything was already there. *)
Theorem C80_same_objects : forall (A : Type) (eqb : A -> A -> bool) (nilv : A), (forall x y, reflect (x = y) (eqb x y)) ->
  forall E objects, NoDup E -> NoDup objects -> ~ In nilv objects -> (forall x, In x E -> In x objects) ->
  exists l, reconcile eqb nilv true E objects = Some l /\ Permutation objects l.
Proof.
  intros A eqb nilv Hr E objects HE Ho Hn Hin. exact (reconcile_total eqb nilv Hr E objects HE Ho Hn Hin).
Qed.
Print Assumptions C80_same_objects.

Theorem C80_same_order_iff : forall (A : Type) (eqb : A -> A -> bool) (nilv : A), (forall x y, reflect (x = y) (eqb x y)) ->
  forall E objects, NoDup E -> NoDup objects -> ~ In nilv objects -> (forall x, In x E -> In x objects) ->
  (reconcile eqb nilv true E objects = Some objects <-> E = [] \/ (forall x, In x objects -> In x E)).
Proof.
  intros A eqb nilv Hr E objects HE Ho Hn Hin. exact (reconcile_iff eqb nilv Hr E objects HE Ho Hn Hin).
Qed.
Print Assumptions C80_same_order_iff.

Example C80_example : reconcile Z.eqb 0 true [4; 2] [1; 2; 3; 4; 5] = Some [2; 3; 4; 5; 1].
Proof. vm_compute. reflexivity. Qed.
