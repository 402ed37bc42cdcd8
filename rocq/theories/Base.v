(** Common vocabulary: outcomes of Go calls, Go slice primitives, and list lemmas.

    Nothing here is specific to soft.go.  [Z] models Go's [int]; overflow of [int] itself is not
    modelled (indices are bounded by memory), overflow of explicitly sized integers is. *)
From Coq Require Export List ZArith Lia Bool Arith.
From Coq Require Export ZifyBool ZifyNat ZifyN.
Export ListNotations.
Open Scope Z_scope.

Ltac Zify.zify_post_hook ::= Z.div_mod_to_equations.

(** Outcome of a Go call on a state [S] returning [R]: normal return or run-time panic. *)
Inductive outcome (S R : Type) : Type :=
| Ret (s : S) (r : R)
| Panic.
Arguments Ret {S R} s r.
Arguments Panic {S R}.

Definition obind {A B} (o : option A) (f : A -> option B) : option B :=
  match o with Some x => f x | None => None end.
Notation "'let?' x ':=' e 'in' f" := (obind e (fun x => f))
  (at level 200, x pattern, right associativity).

(** ** Go slices viewed as lists, with capacity equal to length.
    [None] is the Go run-time panic "index/slice bounds out of range".
    (A re-slice between length and capacity, legal in Go, is only possible in the one place noted in
    [SliceModel]; there the call panics as well, later.) *)
Section Slices.
  Context {A : Type}.
  Definition zlen (l : list A) : Z := Z.of_nat (length l).
  (** [l[i]] *)
  Definition zget (l : list A) (i : Z) : option A :=
    if (i <? 0) then None else nth_error l (Z.to_nat i).
  (** [l[a:b]] *)
  Definition zslice (l : list A) (a b : Z) : option (list A) :=
    if (0 <=? a) && (a <=? b) && (b <=? zlen l)
    then Some (firstn (Z.to_nat (b - a)) (skipn (Z.to_nat a) l)) else None.
  (** [l[i] = v] *)
  Definition zset (l : list A) (i : Z) (v : A) : option (list A) :=
    if (0 <=? i) && (i <? zlen l)
    then Some (firstn (Z.to_nat i) l ++ v :: skipn (Z.to_nat i + 1)%nat l) else None.
  (** [copy(l[off:], src)]: overwrites as many elements as both sides have. *)
  Definition zcopy (l : list A) (off : Z) (src : list A) : option (list A) :=
    if (0 <=? off) && (off <=? zlen l)
    then let o := Z.to_nat off in
         let n := Nat.min (length l - o) (length src) in
         Some (firstn o l ++ firstn n src ++ skipn (o + n) l)
    else None.
End Slices.

(** ** Generic list lemmas *)
Section ListLemmas.
  Context {A : Type}.
  Implicit Types l : list A.

  Lemma nth_error_ext l1 l2 : (forall n, nth_error l1 n = nth_error l2 n) -> l1 = l2.
  Proof.
    revert l2; induction l1 as [|x l1 IH]; intros [|y l2] H; auto.
    - specialize (H 0%nat); discriminate.
    - specialize (H 0%nat); discriminate.
    - f_equal.
      + specialize (H 0%nat); cbn in H; congruence.
      + apply IH; intro n; exact (H (S n)).
  Qed.

  Lemma nth_error_app_if l1 l2 n :
    nth_error (l1 ++ l2) n =
    if (n <? length l1)%nat then nth_error l1 n else nth_error l2 (n - length l1).
  Proof.
    destruct (Nat.ltb_spec n (length l1)).
    - now apply nth_error_app1.
    - now apply nth_error_app2.
  Qed.

  Lemma nth_error_firstn_if k l n :
    nth_error (firstn k l) n = if (n <? k)%nat then nth_error l n else None.
  Proof.
    revert l n; induction k as [|k IH]; intros l n; cbn.
    - destruct n; reflexivity.
    - destruct l as [|x l]; cbn.
      + destruct n; cbn; try reflexivity.
        match goal with |- context [if ?b then _ else _] => destruct b end; reflexivity.
      + destruct n; cbn; [reflexivity|]. rewrite IH. reflexivity.
  Qed.

  Lemma nth_error_skipn_if k l n :
    nth_error (skipn k l) n = nth_error l (k + n).
  Proof.
    revert l; induction k as [|k IH]; intros l; cbn; [reflexivity|].
    destruct l; cbn; [destruct n; reflexivity | apply IH].
  Qed.

  Lemma nth_error_cons_if x l n :
    nth_error (x :: l) n = if (n =? 0)%nat then Some x else nth_error l (n - 1).
  Proof. destruct n; cbn; [reflexivity|]. now rewrite Nat.sub_0_r. Qed.

  Lemma nth_error_nil_none n : nth_error (@nil A) n = None.
  Proof. destruct n; reflexivity. Qed.

  Lemma nth_error_ge_none l n : (length l <= n)%nat -> nth_error l n = None.
  Proof. apply nth_error_None. Qed.

  Lemma nth_error_lt_some l n : (n < length l)%nat -> exists x, nth_error l n = Some x.
  Proof.
    intro H. destruct (nth_error l n) eqn:E; eauto.
    apply nth_error_None in E; lia.
  Qed.

  Lemma zlen_nonneg l : 0 <= zlen l.
  Proof. unfold zlen; lia. Qed.
  Lemma zlen_app l1 l2 : zlen (l1 ++ l2) = zlen l1 + zlen l2.
  Proof. unfold zlen; rewrite app_length; lia. Qed.
  Lemma zlen_cons x l : zlen (x :: l) = 1 + zlen l.
  Proof. unfold zlen; cbn [length]; lia. Qed.
  Lemma zlen_nil : zlen (@nil A) = 0.
  Proof. reflexivity. Qed.

  Lemma firstn_skipn_nth l n x :
    nth_error l n = Some x -> l = firstn n l ++ x :: skipn (S n) l.
  Proof.
    revert l; induction n as [|n IH]; intros [|y l] H; cbn in *; try discriminate.
    - now injection H as ->.
    - f_equal; now apply IH.
  Qed.

  Lemma NoDup_middle l1 x l2 : NoDup (l1 ++ x :: l2) <-> ~ In x (l1 ++ l2) /\ NoDup (l1 ++ l2).
  Proof.
    split.
    - intro H; split; [eapply NoDup_remove_2 | eapply NoDup_remove_1]; eassumption.
    - intros [Hn Hd].
      induction l1 as [|a l1 IH]; cbn in *.
      + now constructor.
      + inversion Hd as [|? ? Ha Hd']; subst. constructor.
        * rewrite in_app_iff in *; cbn in *. intuition.
        * apply IH; tauto.
  Qed.

  Lemma NoDup_app_iff l1 l2 :
    NoDup (l1 ++ l2) <-> NoDup l1 /\ NoDup l2 /\ (forall x, In x l1 -> ~ In x l2).
  Proof.
    induction l1 as [|a l1 IH]; cbn.
    - split; [intro H; repeat split; auto; constructor | tauto].
    - split.
      + intro H; inversion H as [|? ? Ha Hd]; subst. apply IH in Hd as (H1 & H2 & H3).
        rewrite in_app_iff in Ha. split; [|split].
        * constructor; tauto.
        * assumption.
        * intros x [->|Hx]; auto.
      + intros (H1 & H2 & H3); inversion H1; subst. constructor.
        * rewrite in_app_iff; intros [?|?]; [tauto|]. eapply H3; eauto.
        * apply IH; repeat split; auto.
  Qed.
End ListLemmas.

Lemma Forall2_len {A B} (R : A -> B -> Prop) l1 l2 : Forall2 R l1 l2 -> length l1 = length l2.
Proof. induction 1; cbn; congruence. Qed.

Lemma skipn_length_nat {A} k (l : list A) : length (skipn k l) = (length l - k)%nat.
Proof. apply skipn_length. Qed.

(** Extensional proof of equalities between lists built with [firstn], [skipn], [++] and [::]. *)
Ltac len_norm :=
  repeat (rewrite app_length in * || rewrite firstn_length in * || rewrite skipn_length in *
          || rewrite seq_length in * || rewrite map_length in * || rewrite rev_length in *);
  cbn [length] in *.
Ltac list_ext_step :=
  match goal with
  | |- context [nth_error (?a ++ ?b) ?n] =>
      let H := fresh "Hn" in
      destruct (Nat.lt_ge_cases n (length a)) as [H|H];
      [ rewrite (nth_error_app1 a b H) | rewrite (nth_error_app2 a b H) ]
  | |- context [nth_error (firstn ?k ?l) ?n] =>
      let H := fresh "Hn" in
      destruct (Nat.lt_ge_cases n k) as [H|H];
      rewrite (nth_error_firstn_if k l n);
      [ rewrite (proj2 (Nat.ltb_lt n k) H) | rewrite (proj2 (Nat.ltb_ge n k) H) ]
  | |- context [nth_error (skipn ?k ?l) ?n] => rewrite (nth_error_skipn_if k l n)
  | |- context [nth_error (?x :: ?l) ?n] =>
      let H := fresh "Hn" in
      destruct (Nat.eq_dec n 0) as [H|H];
      [ rewrite (nth_error_cons_if x l n), (proj2 (Nat.eqb_eq n 0) H)
      | rewrite (nth_error_cons_if x l n), (proj2 (Nat.eqb_neq n 0) H) ]
  | |- context [nth_error [] ?n] => rewrite (nth_error_nil_none n)
  end; len_norm; try (exfalso; lia).
Ltac list_ext :=
  apply nth_error_ext; let n := fresh "n" in intro n; len_norm;
  repeat list_ext_step;
  try reflexivity;
  try (f_equal; lia);
  try (symmetry; apply nth_error_ge_none; len_norm; lia);
  try (apply nth_error_ge_none; len_norm; lia);
  try (rewrite !nth_error_ge_none by (len_norm; lia); reflexivity).

(** Length arithmetic. *)
Ltac zl :=
  unfold zlen in *;
  repeat (rewrite app_length in * || rewrite firstn_length in * || rewrite skipn_length in *
          || rewrite seq_length in * || rewrite map_length in * || rewrite rev_length in *
          || (progress cbn [length] in *));
  lia.
