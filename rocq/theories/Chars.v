(** Go strings as lists of characters (numbers). *)
From Coq Require Import String Ascii.
From Verif Require Import Base.
Open Scope Z_scope.

Notation str := (list Z).
Definition lit (s : string) : str := map (fun a => Z.of_N (N_of_ascii a)) (list_ascii_of_string s).
Definition str_eq_dec : forall a b : str, {a = b} + {a <> b} := list_eq_dec Z.eq_dec.
Definition str_eqb (a b : str) : bool := if str_eq_dec a b then true else false.
Lemma str_eqb_eq : forall a b, str_eqb a b = true <-> a = b.
Proof. intros a b. unfold str_eqb. destruct (str_eq_dec a b); split; auto; discriminate. Qed.
Lemma str_eqb_refl : forall a, str_eqb a a = true.
Proof. intros. apply str_eqb_eq. auto. Qed.
Lemma str_eqb_neq : forall a b, str_eqb a b = false <-> a <> b.
Proof. intros a b. unfold str_eqb. destruct (str_eq_dec a b); split; auto; try discriminate. intros H; congruence. Qed.
