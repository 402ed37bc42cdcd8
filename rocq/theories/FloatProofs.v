(** A float32 survives the conversion to float64 and back. *)
From Coq Require Import SpecFloat.
From Verif Require Import Base FloatModel.
Open Scope Z_scope.

Lemma digits_shift k m : Zpos (digits2_pos (shift_pos k m)) = Zpos (digits2_pos m) + Zpos k.
Proof.
  unfold shift_pos. induction k as [|k IH] using Pos.peano_ind.
  - cbn [Pos.iter digits2_pos]. lia.
  - rewrite Pos.iter_succ. cbn [digits2_pos]. lia.
Qed.

Definition exact (m : Z) : shr_record := {| shr_m := m; shr_r := false; shr_s := false |}.
Lemma iter_pos_iter {A} (f : A -> A) k : forall x, SpecFloat.iter_pos f k x = Pos.iter f x k.
Proof.
  induction k as [k IH|k IH|]; intro x; cbn [SpecFloat.iter_pos Pos.iter]; [| |reflexivity]; rewrite !IH.
  - rewrite <- !Pos.iter_swap. reflexivity.
  - reflexivity.
Qed.
Lemma shr_iter k m : Pos.iter shr_1 (exact (Zpos (shift_pos k m))) k = exact (Zpos m).
Proof.
  unfold shift_pos. induction k as [|k IH] using Pos.peano_ind; [reflexivity|].
  rewrite Pos.iter_succ_r, Pos.iter_succ. cbn [shr_1 exact shr_m shr_r shr_s]. exact IH.
Qed.

Lemma shr_exact_0 prec emax m e : fexp prec emax (Zdigits2 m + e) = e -> shr_fexp prec emax m e loc_Exact = (exact m, e).
Proof. intro H. unfold shr_fexp, shr. rewrite H, Z.sub_diag. reflexivity. Qed.
Lemma shr_exact prec emax k m e : fexp prec emax (Zpos (digits2_pos m) + (e + Zpos k)) = e + Zpos k ->
  shr_fexp prec emax (Zpos (shift_pos k m)) e loc_Exact = (exact (Zpos m), e + Zpos k).
Proof.
  intro H. unfold shr_fexp, shr. cbn [Zdigits2]. rewrite digits_shift.
  replace (Zpos (digits2_pos m) + Zpos k + e) with (Zpos (digits2_pos m) + (e + Zpos k)) by lia. rewrite H.
  replace (e + Zpos k - e) with (Zpos k) by lia. cbn [shr_record_of_loc]. fold (exact (Zpos (shift_pos k m))).
  f_equal. rewrite iter_pos_iter. apply shr_iter.
Qed.

(** rounding a number that fits *)
Lemma round_fits prec emax s m e : fexp prec emax (Zpos (digits2_pos m) + e) = e -> e <= emax - prec ->
  binary_round_aux prec emax s (Zpos m) e loc_Exact = S754_finite s m e.
Proof.
  intros H1 H2. unfold binary_round_aux. rewrite (shr_exact_0 prec emax (Zpos m) e H1). cbn [loc_of_shr_record exact shr_m shr_r shr_s round_nearest_even].
  rewrite (shr_exact_0 prec emax (Zpos m) e H1). cbn [exact shr_m]. destruct (Z.leb_spec e (emax - prec)); [reflexivity|lia].
Qed.
Lemma round_fits_shifted prec emax s k m e : fexp prec emax (Zpos (digits2_pos m) + (e + Zpos k)) = e + Zpos k -> e + Zpos k <= emax - prec ->
  binary_round_aux prec emax s (Zpos (shift_pos k m)) e loc_Exact = S754_finite s m (e + Zpos k).
Proof.
  intros H1 H2. unfold binary_round_aux. rewrite (shr_exact prec emax k m e H1). cbn [loc_of_shr_record exact shr_m shr_r shr_s round_nearest_even].
  rewrite (shr_exact_0 prec emax (Zpos m) (e + Zpos k) H1). cbn [exact shr_m]. destruct (Z.leb_spec (e + Zpos k) (emax - prec)); [reflexivity|lia].
Qed.

Theorem narrow_widen x : is_float32 x -> narrow (widen x) = x.
Proof.
  unfold is_float32. destruct x as [s|s| |s m e]; try reflexivity. cbn [valid_binary]. unfold bounded, canonical_mantissa.
  intro H. apply andb_true_iff in H. destruct H as [H1 H2]. apply Zeq_bool_eq in H1. apply Z.leb_le in H2.
  cbn [widen]. unfold binary_round, shl_align.
  set (d := Zpos (digits2_pos m)) in *. assert (Hd : 1 <= d) by lia. unfold fexp, emin in H1.
  assert (E53 : fexp 53 1024 (d + e) <= e) by (unfold fexp, emin; lia).
  destruct (fexp 53 1024 (d + e) - e) as [|k|k] eqn:Ek; [| lia |].
  - rewrite round_fits by (unfold d in *; lia). cbn [narrow]. unfold binary_round, shl_align. fold d.
    replace (fexp 24 128 (d + e) - e) with 0 by (unfold fexp, emin; lia). apply round_fits; unfold fexp, emin; unfold d in *; lia.
  - rewrite round_fits; [|rewrite digits_shift; fold d; replace (d + Zpos k + fexp 53 1024 (d + e)) with (d + e) by lia; reflexivity|unfold fexp, emin in *; lia].
    set (e' := fexp 53 1024 (d + e)) in *. cbn [narrow]. unfold binary_round, shl_align. rewrite digits_shift. fold d.
    replace (d + Zpos k + e') with (d + e) by lia.
    assert (Hf : fexp 24 128 (d + e) = e) by (unfold fexp, emin; lia). rewrite Hf.
    replace (e - e') with (Zpos k) by lia.
    rewrite round_fits_shifted; [f_equal; lia|fold d; replace (e' + Zpos k) with e by lia; exact Hf|lia].
Qed.
Theorem widen_float64 x : is_float32 x -> is_float64 (widen x).
Proof.
  unfold is_float32, is_float64. destruct x as [s|s| |s m e]; try reflexivity. cbn [valid_binary]. unfold bounded, canonical_mantissa.
  intro H. apply andb_true_iff in H. destruct H as [H1 H2]. apply Zeq_bool_eq in H1. apply Z.leb_le in H2.
  cbn [widen]. unfold binary_round, shl_align.
  set (d := Zpos (digits2_pos m)) in *. assert (Hd : 1 <= d) by lia. unfold fexp, emin in H1.
  assert (E53 : fexp 53 1024 (d + e) <= e) by (unfold fexp, emin; lia).
  destruct (fexp 53 1024 (d + e) - e) as [|k|k] eqn:Ek; [| lia |].
  - rewrite round_fits by (unfold d in *; lia). cbn [valid_binary]. unfold bounded, canonical_mantissa. fold d.
    apply andb_true_iff. split; [apply Zeq_is_eq_bool; lia|apply Z.leb_le; lia].
  - rewrite round_fits; [|rewrite digits_shift; fold d; replace (d + Zpos k + fexp 53 1024 (d + e)) with (d + e) by lia; reflexivity|unfold fexp, emin in *; lia].
    cbn [valid_binary]. unfold bounded, canonical_mantissa. rewrite digits_shift. fold d.
    replace (d + Zpos k + fexp 53 1024 (d + e)) with (d + e) by lia.
    apply andb_true_iff. split; [apply Zeq_is_eq_bool; reflexivity|apply Z.leb_le; unfold fexp, emin in *; lia].
Qed.
(** a float32 that is not a negative zero or not a number stays so *)
Lemma widen_shape x : is_float32 x -> match x with
  | S754_zero s => widen x = S754_zero s | S754_nan => widen x = S754_nan | S754_infinity s => widen x = S754_infinity s
  | S754_finite s _ _ => exists m e, widen x = S754_finite s m e end.
Proof.
  destruct x as [s|s| |s m e]; try reflexivity. intro H. pose proof (narrow_widen _ H) as N.
  destruct (widen (S754_finite s m e)) as [s'|s'| |s' m' e'] eqn:E; try discriminate N.
  assert (s' = s); [|subst; eauto]. cbn [widen] in E. unfold binary_round in E. destruct (shl_align m e (fexp 53 1024 (Zpos (digits2_pos m) + e))) as [mz ez].
  unfold binary_round_aux in E. destruct (shr_fexp 53 1024 (Zpos mz) ez loc_Exact) as [r1 e1].
  destruct (shr_fexp 53 1024 (round_nearest_even (shr_m r1) (loc_of_shr_record r1)) e1 loc_Exact) as [r2 e2].
  destruct (shr_m r2); try discriminate E. destruct (e2 <=? 1024 - 53); congruence.
Qed.
