(** Proofs about TimeModel. *)
From Coq Require Import String.
From Verif Require Import Base Chars StrconvModel StrconvProofs TimeModel.
Local Open Scope string_scope.
Local Open Scope list_scope.
Local Open Scope Z_scope.

(** ** calendar *)
Lemma year_ok n : days_before_year (year_of n) <= n < days_before_year (year_of n + 1).
Proof.
  unfold year_of. set (y := n * 400 / 146097). unfold days_before_year in *.
  assert (146097 * y <= n * 400 < 146097 * (y + 1)) by (unfold y; Z.to_euclidean_division_equations; lia). clearbody y.
  destruct (Z.ltb_spec n (365 * y + (y + 3) / 4 - (y + 99) / 100 + (y + 399) / 400)) as [L|L];
    [|destruct (Z.leb_spec (365 * (y + 1) + (y + 1 + 3) / 4 - (y + 1 + 99) / 100 + (y + 1 + 399) / 400) n)];
    Z.to_euclidean_division_equations; lia.
Qed.

Lemma leap_length y : days_before_year (y + 1) = days_before_year y + fold_right Z.add 0 (month_lengths y).
Proof.
  unfold days_before_year, month_lengths, leap. cbn [fold_right].
  destruct (Z.eqb_spec (y mod 4) 0), (Z.eqb_spec (y mod 100) 0), (Z.eqb_spec (y mod 400) 0); cbn [andb orb negb];
    Z.to_euclidean_division_equations; lia.
Qed.

Lemma month_day_ok lengths : forall m d, 0 <= d < fold_right Z.add 0 lengths -> Forall (fun l => 0 < l) lengths ->
  exists k l, month_day m lengths d = (m + Z.of_nat k, d - fold_right Z.add 0 (firstn k lengths) + 1) /\
    (k < length lengths)%nat /\ nth_error lengths k = Some l /\ 0 <= d - fold_right Z.add 0 (firstn k lengths) < l.
Proof.
  induction lengths as [|l ls IH]; intros m d Hd Hp; cbn [fold_right] in Hd; [lia|]. cbn [month_day].
  inversion Hp as [|? ? Hl Hls]; subst. destruct (Z.ltb_spec d l) as [L|L].
  - exists 0%nat, l. cbn [firstn fold_right nth_error length]. rewrite Z.add_0_r, Z.sub_0_r. repeat split; try lia.
  - destruct (IH (m + 1) (d - l)) as (k & l' & E & H1 & H2 & H3); [lia|assumption|].
    exists (S k), l'. rewrite E. cbn [firstn fold_right nth_error length]. split; [f_equal; lia|]. split; [lia|]. split; [exact H2|lia].
Qed.

Lemma month_positive y : Forall (fun l => 0 < l) (month_lengths y).
Proof. unfold month_lengths. repeat constructor; destruct (leap y); lia. Qed.

Record date_ok (n y m d : Z) : Prop := {
  do_year : year_of n = y; do_month : 1 <= m <= 12; do_day : 1 <= d <= days_in_month y m; do_days : days_of_date y m d = n }.
Lemma date_of_days_ok n : exists y m d, date_of_days n = (y, m, d) /\ date_ok n y m d.
Proof.
  unfold date_of_days. pose proof (year_ok n) as Hy. rewrite leap_length in Hy.
  destruct (month_day_ok (month_lengths (year_of n)) 1 (n - days_before_year (year_of n))) as (k & l & E & Hk & Hl & Hr); [lia|apply month_positive|].
  rewrite E. eexists _, _, _. split; [reflexivity|].
  assert (Hk12 : (k < 12)%nat) by exact Hk.
  constructor; [reflexivity|lia| |].
  - unfold days_in_month. replace (Z.to_nat (1 + Z.of_nat k - 1)) with k by lia. rewrite (nth_error_nth _ _ _ Hl). lia.
  - unfold days_of_date, days_before_month. replace (Z.to_nat (1 + Z.of_nat k - 1)) with k by lia. lia.
Qed.
Lemma year_range n : 0 <= n < 3652425 -> 0 <= year_of n < 10000.
Proof. intro H. pose proof (year_ok n) as Hy. unfold days_before_year in Hy. Z.to_euclidean_division_equations. lia. Qed.
Lemma days_in_month_bound y m : days_in_month y m <= 31.
Proof.
  unfold days_in_month, month_lengths. generalize (Z.to_nat (m - 1)). intro k.
  do 12 (destruct k as [|k]; [cbn [nth]; destruct (leap y); lia|]). cbn [nth]. destruct k; lia.
Qed.

(** ** digits *)
Lemma two_pad n r : 0 <= n < 100 -> two (pad 2 n ++ r) = Some (n, r).
Proof.
  intro H. assert (E : pad 2 n = [48 + n / 10; 48 + n mod 10]).
  { assert (F : forallb (fun k => if list_eq_dec Z.eq_dec (pad 2 (Z.of_nat k)) [48 + Z.of_nat k / 10; 48 + Z.of_nat k mod 10] then true else false) (seq 0 100) = true) by (vm_compute; reflexivity).
    rewrite forallb_forall in F. specialize (F (Z.to_nat n)). rewrite Z2Nat.id in F by lia.
    destruct (list_eq_dec Z.eq_dec (pad 2 n) [48 + n / 10; 48 + n mod 10]) as [E|]; [exact E|].
    discriminate F. apply in_seq. lia. }
  rewrite E. cbn [app two]. unfold digit, is_digit.
  assert (0 <= n / 10 < 10) by (Z.to_euclidean_division_equations; lia).
  assert (0 <= n mod 10 < 10) by (apply Z.mod_pos_bound; lia).
  replace ((48 <=? 48 + n / 10) && (48 + n / 10 <=? 57)) with true by lia.
  replace ((48 <=? 48 + n mod 10) && (48 + n mod 10 <=? 57)) with true by lia.
  f_equal. f_equal. Z.to_euclidean_division_equations; lia.
Qed.
Lemma one_or_two_pad n r : 0 <= n < 100 -> one_or_two (pad 2 n ++ r) = Some (n, r).
Proof. intro H. unfold one_or_two. now rewrite two_pad. Qed.
Lemma four_pad n r : 0 <= n < 10000 -> four (pad 4 n ++ r) = Some (n, r).
Proof.
  intro H. assert (E : pad 4 n = pad 2 (n / 100) ++ pad 2 (n mod 100)).
  { assert (F : forallb (fun k => let k := Z.of_nat k in if list_eq_dec Z.eq_dec (pad 4 k) (pad 2 (k / 100) ++ pad 2 (k mod 100)) then true else false) (seq 0 (100 * 100)) = true) by (vm_compute; reflexivity).
    rewrite forallb_forall in F. specialize (F (Z.to_nat n)). cbv zeta in F. rewrite Z2Nat.id in F by lia.
    destruct (list_eq_dec Z.eq_dec (pad 4 n) (pad 2 (n / 100) ++ pad 2 (n mod 100))) as [E|]; [exact E|].
    discriminate F. apply in_seq. lia. }
  unfold four. rewrite E, <- app_assoc, two_pad, two_pad; [f_equal; f_equal| |]; Z.to_euclidean_division_equations; lia.
Qed.

(** ** fractions *)
Definition no_digit (s : str) : Prop := match s with [] => True | c :: _ => is_digit c = false end.
Lemma parse_frac_none s : match s with [] => True | c :: _ => (c =? 46) || (c =? 44) = false end -> parse_frac s = (0, s).
Proof. destruct s as [|c s]; [reflexivity|]. cbn [parse_frac]. now intros ->. Qed.
Lemma take_digits_app ds r : all_digits ds -> no_digit r -> take_digits (ds ++ r) = (ds, r).
Proof.
  induction ds as [|c ds IH]; intros H Hr.
  - destruct r as [|c r]; [reflexivity|]. cbn [app take_digits no_digit] in *. now rewrite Hr.
  - cbn [app take_digits]. assert (is_digit c = true) as -> by (apply H; left; reflexivity).
    rewrite IH; [reflexivity| |exact Hr]. intros x Hx. apply H. right. exact Hx.
Qed.
Definition frac_value (s : str) : Z := fst (parse_frac s).
Lemma frac_ok n r : 0 <= n < 1000000000 -> no_digit r -> match r with [] => True | c :: _ => (c =? 46) || (c =? 44) = false end ->
  parse_frac (format_frac n ++ r) = (n / 1000000 * 1000000, r).
Proof.
  intros Hn Hr Hr2. unfold format_frac. set (k := n / 1000000).
  assert (Hk : 0 <= k < 1000) by (unfold k; Z.to_euclidean_division_equations; lia). clearbody k.
  assert (F : forallb (fun k => let k := Z.of_nat k in
      match trim_zeros (pad 3 k) with
      | [] => k =? 0
      | ds => forallb is_digit ds && (match number 0 (firstn 9 ds) with Some v => v * 10 ^ (9 - zlen (firstn 9 ds)) =? k * 1000000 | None => false end)
      end) (seq 0 (10 * 100)) = true) by (vm_compute; reflexivity).
  rewrite forallb_forall in F. specialize (F (Z.to_nat k)). cbv zeta in F. rewrite Z2Nat.id in F by lia.
  assert (Hin : In (Z.to_nat k) (seq 0 (10 * 100))) by (apply in_seq; lia). apply F in Hin. clear F.
  destruct (trim_zeros (pad 3 k)) as [|c ds] eqn:E.
  - apply Z.eqb_eq in Hin. subst k. cbn [app]. now apply parse_frac_none.
  - apply andb_true_iff in Hin. destruct Hin as [H1 H2].
    change (lit ".") with [46]. cbn [app]. unfold parse_frac. cbn [Z.eqb Pos.eqb orb]. change (c :: ds ++ r) with ((c :: ds) ++ r).
    rewrite take_digits_app; [|intros x Hx; rewrite forallb_forall in H1; now apply H1|exact Hr].
    destruct (number 0 (firstn 9 (c :: ds))) as [v|]; [|discriminate]. apply Z.eqb_eq in H2. now rewrite H2.
Qed.

(** ** clock and zone *)
Definition four_digit_year (t : time) : Prop := - epoch * 86400 <= sec t + off t < (3652425 - epoch) * 86400.

Lemma parse_format_clock t r : four_digit_year t -> 
  parse_clock (format_clock t ++ r) = Some (sec t + off t, fst (parse_frac r), snd (parse_frac r)).
Proof.
  intro H. unfold format_clock, four_digit_year, epoch in *.
  destruct (date_of_days_ok ((sec t + off t) / 86400 + 719528)) as (y & m & d & E & D). rewrite E.
  assert (Hy : 0 <= y < 10000).
  { rewrite <- (do_year _ _ _ _ D). apply year_range. Z.to_euclidean_division_equations; lia. }
  pose proof (do_month _ _ _ _ D) as Hm. pose proof (do_day _ _ _ _ D) as Hd. pose proof (days_in_month_bound y m) as Hb.
  set (s := (sec t + off t) mod 86400).
  assert (Hs : 0 <= s < 86400) by (apply Z.mod_pos_bound; lia).
  assert (Hh : 0 <= s / 3600 < 24) by (Z.to_euclidean_division_equations; lia).
  assert (Hmi : 0 <= s / 60 mod 60 < 60) by (apply Z.mod_pos_bound; lia).
  assert (Hse : 0 <= s mod 60 < 60) by (apply Z.mod_pos_bound; lia).
  unfold parse_clock. rewrite <- !app_assoc.
  change (lit "-") with [45]. change (lit "T") with [84]. change (lit ":") with [58]. cbn [app].
  rewrite four_pad by lia. cbn [bind expect Z.eqb Pos.eqb].
  rewrite two_pad by lia. cbn [bind expect Z.eqb Pos.eqb].
  rewrite two_pad by lia. cbn [bind expect Z.eqb Pos.eqb].
  rewrite one_or_two_pad by lia. cbn [bind expect Z.eqb Pos.eqb].
  rewrite two_pad by lia. cbn [bind expect Z.eqb Pos.eqb].
  rewrite two_pad by lia. cbn [bind]. destruct (parse_frac r) as [ns rest]. cbn [fst snd].
  replace ((1 <=? m) && (m <=? 12) && (1 <=? d) && (d <=? days_in_month y m) && (s / 3600 <? 24) && (s / 60 mod 60 <? 60) && (s mod 60 <? 60)) with true by lia.
  rewrite (do_days _ _ _ _ D). do 3 f_equal. unfold s. unfold epoch. Z.to_euclidean_division_equations; lia.
Qed.

Lemma parse_format_zone o : -86400 < o < 86400 -> parse_zone (format_zone o) = Some (Z.quot o 60 * 60, []).
Proof.
  intro H. unfold format_zone. destruct (Z.eqb_spec o 0) as [->|Hne]; [reflexivity|].
  set (z := Z.quot o 60). assert (Hz : -1440 < z < 1440) by (unfold z; Z.to_euclidean_division_equations; lia).
  assert (H1 : 0 <= Z.abs z / 60 < 24) by (Z.to_euclidean_division_equations; lia).
  assert (H2 : 0 <= Z.abs z mod 60 < 60) by (apply Z.mod_pos_bound; lia).
  rewrite <- (app_nil_r (pad 2 (Z.abs z mod 60))).
  destruct (Z.ltb_spec z 0).
  - change (lit "-") with [45]. change (lit ":") with [58]. cbn [app parse_zone Z.eqb Pos.eqb orb].
    rewrite two_pad by lia. cbn [bind expect Z.eqb Pos.eqb]. rewrite two_pad by lia. cbn [bind].
    replace ((Z.abs z / 60 <=? 24) && (Z.abs z mod 60 <? 60)) with true by lia. do 2 f_equal. Z.to_euclidean_division_equations; lia.
  - change (lit "+") with [43]. change (lit ":") with [58]. cbn [app parse_zone Z.eqb Pos.eqb orb].
    rewrite two_pad by lia. cbn [bind expect Z.eqb Pos.eqb]. rewrite two_pad by lia. cbn [bind].
    replace ((Z.abs z / 60 <=? 24) && (Z.abs z mod 60 <? 60)) with true by lia. do 2 f_equal. Z.to_euclidean_division_equations; lia.
Qed.

Lemma zone_start o : match format_zone o with [] => True | c :: _ => (c =? 46) || (c =? 44) = false end.
Proof. unfold format_zone. destruct (o =? 0); [reflexivity|]. destruct (Z.quot o 60 <? 0); reflexivity. Qed.

Theorem rfc3339_ok t : four_digit_year t -> -86400 < off t < 86400 ->
  parse_rfc3339 (format_rfc3339 t) = Some (mkTime (sec t + (off t - Z.quot (off t) 60 * 60)) 0 (Z.quot (off t) 60 * 60)).
Proof.
  intros Hy Ho. unfold parse_rfc3339, format_rfc3339. rewrite parse_format_clock by exact Hy.
  rewrite (parse_frac_none (format_zone (off t)) (zone_start _)). cbn [fst snd bind]. rewrite parse_format_zone by exact Ho. cbn [bind].
  do 2 f_equal. lia.
Qed.
Theorem milli_ok t : four_digit_year t -> 0 <= nsec t < 1000000000 ->
  parse_milli (format_milli t) = Some (mkTime (sec t + off t) (nsec t / 1000000 * 1000000) 0).
Proof.
  intros Hy Hn. unfold parse_milli, format_milli. rewrite parse_format_clock by exact Hy.
  rewrite frac_ok by (try exact Hn; reflexivity). cbn [fst snd bind]. reflexivity.
Qed.
