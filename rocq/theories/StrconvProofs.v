(** Facts about StrconvModel. *)
From Coq Require Import String.
From Verif Require Import Base Chars StrconvModel.
Open Scope Z_scope.

Definition all_digits (s : str) : Prop := forall c, In c s -> is_digit c = true.
Lemma number_app : forall a b acc, number acc (a ++ b) = match number acc a with Some x => number x b | None => None end.
Proof. induction a as [|c a IH]; intros b acc; cbn; auto. destruct (is_digit c); auto. Qed.

Lemma digits_spec : forall fuel n acc, 0 <= n < 10 ^ Z.of_nat fuel -> (0 < fuel)%nat ->
  exists ds, digits fuel n acc = ds ++ acc /\ all_digits ds /\ ds <> [] /\ number 0 ds = Some n /\ (n <> 0 -> hd 0 ds <> 48).
Proof.
  induction fuel as [|f IH]; intros n acc B F; [lia|]. cbn [digits].
  assert (D : is_digit (48 + n mod 10) = true) by (unfold is_digit; lia).
  destruct (Z.eqb_spec (n / 10) 0) as [E|E].
  - exists [48 + n mod 10]. split; [reflexivity|]. split; [intros c [<-|[]]; auto|]. split; [discriminate|]. split.
    + cbn [number]. rewrite D. f_equal. lia.
    + intros N. change (48 + n mod 10 <> 48). lia.
  - assert (F2 : (0 < f)%nat). { destruct f; [cbn in B; lia|lia]. }
    destruct (IH (n / 10) ((48 + n mod 10) :: acc)) as (ds & E1 & A & NE & V & H0).
    + rewrite Nat2Z.inj_succ, Z.pow_succ_r in B by lia. lia.
    + auto.
    + exists (ds ++ [48 + n mod 10]). rewrite E1, <- app_assoc. split; [reflexivity|]. split; [|split; [|split]].
      * intros c I. apply in_app_or in I. destruct I as [I|[<-|[]]]; auto.
      * destruct ds; discriminate.
      * rewrite number_app, V. cbn [number]. rewrite D. f_equal. lia.
      * intros _. destruct ds; [congruence|]. apply H0. auto.
Qed.
Lemma format_nat_spec : forall n, 0 <= n -> all_digits (format_nat n) /\ format_nat n <> [] /\ number 0 (format_nat n) = Some n /\ (n <> 0 -> hd 0 (format_nat n) <> 48).
Proof.
  intros n N. unfold format_nat. destruct (digits_spec (S (Z.to_nat (Z.log2 n))) n []) as (ds & E & H).
  - split; auto. destruct (Z.eq_dec n 0) as [->|]; [cbn; lia|].
    pose proof (Z.log2_spec n ltac:(lia)) as L. pose proof (Z.log2_nonneg n) as L0. rewrite Nat2Z.inj_succ, Z2Nat.id by auto.
    assert (2 ^ Z.succ (Z.log2 n) <= 10 ^ Z.succ (Z.log2 n)) by (apply Z.pow_le_mono_l; lia). lia.
  - lia.
  - rewrite E, app_nil_r. exact H.
Qed.

Lemma parse_itoa : forall bits n, 1 <= bits -> - 2 ^ (bits - 1) <= n < 2 ^ (bits - 1) -> parse_int bits (itoa n) = (n, true).
Proof.
  intros bits n B R. unfold itoa, parse_int. destruct (Z.ltb_spec n 0).
  - destruct (format_nat_spec (- n)) as (A & NE & V & _); [lia|]. destruct (format_nat (- n)) as [|c l]; [congruence|]. rewrite V.
    destruct (Z.leb_spec (- n) (2 ^ (bits - 1))); [|lia]. f_equal. lia.
  - destruct (format_nat_spec n) as (A & NE & V & _); [lia|]. destruct (format_nat n) as [|c l] eqn:E; [congruence|].
    pose proof (A c ltac:(cbn; auto)) as D. unfold is_digit in D.
    assert (X : match c :: l with 45 :: r => (true, r) | 43 :: r => (false, r) | _ => (false, c :: l) end = (false, c :: l)).
    { destruct c as [|p|p]; auto. destruct p as [p|p|]; auto; destruct p as [p|p|]; auto; destruct p as [p|p|]; auto; destruct p as [p|p|]; auto; destruct p as [p|p|]; auto; destruct p as [p|p|]; auto; cbn in D; discriminate. }
    rewrite X, V. destruct (Z.ltb_spec n (2 ^ (bits - 1))); [auto|lia].
Qed.
Lemma atoi_itoa : forall n, - 2 ^ 63 <= n < 2 ^ 63 -> atoi (itoa n) = (n, true).
Proof. intros. apply parse_itoa; lia. Qed.
Lemma itoa_digits : forall n, 0 <= n -> all_digits (itoa n) /\ itoa n <> [].
Proof. intros n N. unfold itoa. destruct (Z.ltb_spec n 0); [lia|]. destruct (format_nat_spec n N) as (A & NE & _). auto. Qed.
Lemma itoa_chars : forall n c, In c (itoa n) -> c = 45 \/ is_digit c = true.
Proof.
  intros n c I. unfold itoa in I. destruct (Z.ltb_spec n 0).
  - destruct I as [<-|I]; auto. right. destruct (format_nat_spec (- n)) as (A & _); [lia|auto].
  - right. destruct (format_nat_spec n) as (A & _); auto.
Qed.

(** *** split and join *)
Lemma split_not_nil : forall sep s, split sep s <> [].
Proof. intros sep [|c s]; cbn; [discriminate|]. destruct (c =? sep); [discriminate|]. destruct (split sep s); discriminate. Qed.
Lemma split_app : forall sep x s, ~ In sep x -> split sep (x ++ sep :: s) = x :: split sep s.
Proof.
  intros sep x s. induction x as [|c x IH]; intros H; cbn.
  - rewrite Z.eqb_refl. auto.
  - destruct (Z.eqb_spec c sep); [subst; cbn in H; tauto|]. rewrite IH by (cbn in H; tauto). auto.
Qed.
Lemma split_one : forall sep x, ~ In sep x -> split sep x = [x].
Proof.
  intros sep x. induction x as [|c x IH]; intros H; cbn; auto. destruct (Z.eqb_spec c sep); [subst; cbn in H; tauto|]. rewrite IH by (cbn in H; tauto). auto.
Qed.
Lemma split_join : forall sep l, l <> [] -> (forall x, In x l -> ~ In sep x) -> split sep (join [sep] l) = l.
Proof.
  intros sep l. induction l as [|x l IH]; intros NE H; [congruence|]. destruct l as [|y l].
  - cbn [join]. apply split_one. apply H. cbn. auto.
  - cbn [join app]. rewrite split_app by (apply H; cbn; auto). f_equal. apply IH; [discriminate|]. intros; apply H; cbn in *; auto.
Qed.
Lemma join_cons : forall sep x l, l <> [] -> join sep (x :: l) = x ++ sep ++ join sep l.
Proof. intros sep x [|y l] H; [congruence|auto]. Qed.

(** *** last_index *)
Lemma last_index_none : forall c s, ~ In c s -> last_index c s = -1.
Proof.
  intros c s. induction s as [|x s IH]; intros H; cbn; auto. rewrite IH by (cbn in H; tauto). cbn. destruct (Z.eqb_spec x c); auto. subst. cbn in H. tauto.
Qed.
Lemma last_index_app : forall c a b, ~ In c b -> last_index c (a ++ c :: b) = zlen a.
Proof.
  intros c a b H. induction a as [|x a IH]; cbn [app last_index].
  - rewrite last_index_none by auto. cbn. rewrite Z.eqb_refl. auto.
  - rewrite IH. unfold zlen. cbn [length]. destruct (Z.leb_spec 0 (Z.of_nat (length a))); lia.
Qed.
Lemma last_index_cases : forall c s, (last_index c s = -1 /\ ~ In c s) \/ (exists a b, s = a ++ c :: b /\ ~ In c b /\ last_index c s = zlen a).
Proof.
  intros c s. destruct (in_dec Z.eq_dec c s) as [I|I]; [right|left; split; [apply last_index_none; auto|auto]].
  assert (X : exists a b, s = a ++ c :: b /\ ~ In c b).
  { clear -I. induction s as [|x s IH]; [destruct I|]. destruct (in_dec Z.eq_dec c s) as [I'|I'].
    - destruct (IH I') as (a & b & -> & H). exists (x :: a), b. auto.
    - destruct I as [->|I]; [|tauto]. exists [], s. auto. }
  destruct X as (a & b & -> & H). exists a, b. split; [auto|]. split; auto. apply last_index_app. auto.
Qed.

(** *** escaping *)
Lemma unhex_hex : forall n, 0 <= n < 16 -> unhex (hex n) = Some n.
Proof.
  intros n B. unfold unhex, hex, is_digit. destruct (Z.ltb_spec n 10).
  - replace ((48 <=? 48 + n) && (48 + n <=? 57)) with true by lia. f_equal. lia.
  - replace ((48 <=? 55 + n) && (55 + n <=? 57)) with false by lia. replace ((97 <=? 55 + n) && (55 + n <=? 102)) with false by lia.
    replace ((65 <=? 55 + n) && (55 + n <=? 70)) with true by lia. f_equal. lia.
Qed.
Definition bytes (s : str) : Prop := forall c, In c s -> 0 <= c < 256.
Lemma unescape_escape : forall s, bytes s -> path_unescape (path_escape s) = s.
Proof.
  intros s B. unfold path_unescape. assert (E : path_unescape_opt (path_escape s) = Some s); [|rewrite E; auto].
  induction s as [|c s IH]; auto. unfold path_escape. cbn [flat_map]. fold (path_escape s).
  assert (IH' : path_unescape_opt (path_escape s) = Some s) by (apply IH; intros x I; apply B; cbn; auto).
  destruct (path_safe c) eqn:P.
  - cbn [app path_unescape_opt]. destruct (Z.eq_dec c 37) as [->|N]; [discriminate|]. rewrite IH'.
    clear - N. destruct c as [|p|p]; auto. repeat (destruct p as [p|p|]; auto; try (exfalso; apply N; reflexivity)).
  - cbn [app path_unescape_opt]. specialize (B c ltac:(cbn; auto)). rewrite !unhex_hex by lia. rewrite IH'. f_equal. f_equal. lia.
Qed.
Lemma path_safe_escape : forall s, forallb path_safe s = true -> path_escape s = s.
Proof.
  induction s as [|c s IH]; intros H; auto. cbn in H. apply andb_prop in H. destruct H as [H1 H2]. unfold path_escape. cbn [flat_map]. rewrite H1. cbn. f_equal. apply IH. auto.
Qed.
Lemma path_escape_no_slash : forall s, bytes s -> ~ In 47 (path_escape s).
Proof.
  intros s B I. unfold path_escape in I. apply in_flat_map in I. destruct I as (c & C & I). specialize (B c C). destruct (path_safe c) eqn:P.
  - destruct I as [->|[]]. discriminate.
  - unfold hex in I. destruct I as [I|[I|[I|[]]]]; [discriminate| |].
    + destruct (Z.ltb_spec (c / 16) 10); lia.
    + destruct (Z.ltb_spec (c mod 16) 10); lia.
Qed.
