From Verif Require Import Base ListProofs CompactModel CompactSpec.

Definition nn (a : any) : list any := if is_nil a then [] else [a].
(** non-nil values of the fields in [bs], in order *)
Definition vals (m : Z -> any) (bs : list Z) : list any := flat_map (fun b => nn (m b)) bs.
Definition pack (l : list any) : any := match l with [] => ANil | [v] => v | _ => AArr l end.

Definition Inv (o : cobj) (m : Z -> any) : Prop :=
  (forall f, In f bits -> hasField o f = negb (is_nil (m f))) /\ storage o = pack (vals m bits).

Lemma vals_app m a b : vals m (a ++ b) = vals m a ++ vals m b.
Proof. apply flat_map_app. Qed.

Lemma NoDup_bits : NoDup bits.
Proof. repeat constructor; cbn; unfold container_flag, resource_flag, adapters_flag, proxy_flag, class_flag, contents_flag, cross_flag, properties_flag; lia. Qed.

(** [bits] is increasing *)
Lemma bits_split f : In f bits ->
  exists b1 b2, bits = b1 ++ f :: b2 /\ (forall b, In b b1 -> b < f) /\ (forall b, In b b2 -> f < b).
Proof.
  intro H.
  assert (G : forall n, (n < 8)%nat ->
     let f := nth n bits 0 in
     bits = firstn n bits ++ f :: skipn (S n) bits
     /\ Forall (fun b => b < f) (firstn n bits) /\ Forall (fun b => f < b) (skipn (S n) bits)).
  { intros n Hn. do 8 (destruct n as [|n]; [split; [reflexivity|split; cbn; repeat constructor]|]). lia. }
  destruct (In_nth _ _ 0 H) as (n & Hn & <-).
  destruct (G n Hn) as (G1 & G2 & G3). exists (firstn n bits), (skipn (S n) bits).
  rewrite Forall_forall in G2, G3. auto.
Qed.

Lemma hasField_bit o k : 0 <= k -> hasField o (2 ^ k) = Z.testbit (flags o) k.
Proof.
  intro H. unfold hasField. destruct (Z.testbit (flags o) k) eqn:E.
  - destruct (Z.eqb_spec (Z.land (flags o) (2 ^ k)) 0) as [E0|]; [|reflexivity].
    assert (Z.testbit (Z.land (flags o) (2 ^ k)) k = false) by (rewrite E0; apply Z.bits_0).
    rewrite Z.land_spec, E, Z.pow2_bits_true in * by lia. discriminate.
  - replace (Z.land (flags o) (2 ^ k)) with 0; [reflexivity|].
    symmetry. apply Z.bits_inj'. intros n Hn. rewrite Z.bits_0, Z.land_spec, Z.pow2_bits_eqb by lia.
    destruct (Z.eqb_spec k n) as [->|]; [now rewrite E|apply andb_false_r].
Qed.

Lemma bits_pow f : In f bits -> exists k, f = 2 ^ k /\ 1 <= k <= 8.
Proof.
  cbn. intros [<-|[<-|[<-|[<-|[<-|[<-|[<-|[<-|[]]]]]]]]];
   [exists 1|exists 2|exists 3|exists 4|exists 5|exists 6|exists 7|exists 8]; (split; [reflexivity|lia]).
Qed.

Lemma onescount_fields o : OnesCount (Z.land (flags o) fields_mask) = zlen (filter (hasField o) bits).
Proof.
  unfold OnesCount.
  assert (E : bits = map (fun k => 2 ^ k) (map Z.of_nat (seq 1 8))) by reflexivity. rewrite E.
  assert (F : forall l, Forall (fun k => 0 <= k) l ->
     zlen (filter (hasField o) (map (fun k => 2 ^ k) l)) = zlen (filter (Z.testbit (flags o)) l)).
  { induction 1 as [|k l Hk Hl IH]; [reflexivity|]. cbn [map filter]. rewrite hasField_bit by assumption.
    destruct (Z.testbit (flags o) k); rewrite ?zlen_cons, IH; reflexivity. }
  rewrite F by (repeat constructor; lia).
  replace (filter (Z.testbit (Z.land (flags o) fields_mask)) (map Z.of_nat (seq 0 64)))
    with (filter (Z.testbit (flags o)) (map Z.of_nat (seq 1 8))); [reflexivity|].
  replace (map Z.of_nat (seq 0 64)) with (map Z.of_nat (seq 0 1) ++ map Z.of_nat (seq 1 8) ++ map Z.of_nat (seq 9 55)) by reflexivity.
  rewrite !filter_app.
  assert (Hout : forall l, Forall (fun k => Z.testbit fields_mask k = false) l ->
     filter (Z.testbit (Z.land (flags o) fields_mask)) l = []).
  { induction 1 as [|k l Hk Hl IH]; [reflexivity|]. cbn [filter]. now rewrite Z.land_spec, Hk, andb_false_r. }
  assert (Hin : forall l, Forall (fun k => Z.testbit fields_mask k = true) l ->
     filter (Z.testbit (Z.land (flags o) fields_mask)) l = filter (Z.testbit (flags o)) l).
  { induction 1 as [|k l Hk Hl IH]; [reflexivity|]. cbn [filter]. now rewrite Z.land_spec, Hk, andb_true_r, IH. }
  rewrite (Hout (map Z.of_nat (seq 0 1))) by (repeat constructor).
  rewrite (Hout (map Z.of_nat (seq 9 55))) by (repeat constructor).
  rewrite Hin by (repeat constructor). now rewrite app_nil_r.
Qed.

Lemma zlen_filter_vals o m bs : (forall f, In f bs -> hasField o f = negb (is_nil (m f))) ->
  zlen (filter (hasField o) bs) = zlen (vals m bs).
Proof.
  induction bs as [|b bs IH]; intro H; [reflexivity|]. cbn [filter vals flat_map].
  rewrite (H b (or_introl eq_refl)). rewrite zlen_app. unfold vals in IH. rewrite <- IH by firstorder.
  unfold nn. destruct (is_nil (m b)); cbn [negb]; rewrite ?zlen_cons; reflexivity.
Qed.

Lemma fieldIndex_eq o m f b1 b2 : (forall f, In f bits -> hasField o f = negb (is_nil (m f))) ->
  bits = b1 ++ f :: b2 -> (forall b, In b b1 -> b < f) -> (forall b, In b b2 -> f < b) ->
  fieldIndex o f = if zlen (vals m b1) =? 0 then if zlen (vals m b2) =? 0 then -1 else 0 else zlen (vals m b1).
Proof.
  intros Hh E H1 H2. unfold fieldIndex. rewrite E.
  assert (Hb : forall b, In b (b1 ++ f :: b2) -> hasField o b = negb (is_nil (m b))) by (rewrite <- E; assumption).
  assert (E1 : zlen (filter (fun bit => (bit <? f) && hasField o bit) (b1 ++ f :: b2)) = zlen (vals m b1)).
  { rewrite filter_app. cbn [filter]. rewrite Z.ltb_irrefl. cbn [andb].
    rewrite <- (zlen_filter_vals o m b1) by (intros; apply Hb, in_app_iff; auto).
    assert (Q : filter (fun bit => (bit <? f) && hasField o bit) b2 = []).
    { clear -H2. induction b2 as [|b b2 IH]; [reflexivity|]. cbn [filter].
      assert (f < b) by firstorder. replace (b <? f) with false by lia. apply IH; firstorder. }
    assert (P : filter (fun bit => (bit <? f) && hasField o bit) b1 = filter (hasField o) b1).
    { clear -H1. induction b1 as [|b b1 IH]; [reflexivity|]. cbn [filter].
      assert (b < f) by firstorder. replace (b <? f) with true by lia. cbn [andb].
      rewrite IH by firstorder. reflexivity. }
    rewrite P, Q, app_nil_r. reflexivity. }
  assert (E2 : existsb (fun bit => (f <? bit) && hasField o bit) (b1 ++ f :: b2) = negb (zlen (vals m b2) =? 0)).
  { rewrite existsb_app. cbn [existsb]. rewrite Z.ltb_irrefl. cbn [andb orb].
    assert (P : existsb (fun bit => (f <? bit) && hasField o bit) b1 = false).
    { clear -H1. induction b1 as [|b b1 IH]; [reflexivity|]. cbn [existsb].
      assert (b < f) by firstorder. replace (f <? b) with false by lia. apply IH; firstorder. }
    rewrite P. cbn [orb].
    assert (Hb2 : forall b, In b b2 -> hasField o b = negb (is_nil (m b)))
      by (intros; apply Hb, in_app_iff; cbn; auto).
    clear -H2 Hb2. induction b2 as [|b b2 IH]; [reflexivity|]. cbn [existsb vals flat_map].
    assert (f < b) by firstorder. replace (f <? b) with true by lia. cbn [andb].
    rewrite Hb2 by firstorder. rewrite IH by firstorder. rewrite zlen_app. fold (vals m b2).
    pose proof (zlen_nonneg (vals m b2)). unfold nn.
    destruct (is_nil (m b)); cbn [negb orb]; rewrite ?zlen_cons; change (zlen (@nil any)) with 0; lia. }
  rewrite E1, E2. pose proof (zlen_nonneg (vals m b1)).
  destruct (zlen (vals m b1) =? 0); [|reflexivity]. destruct (zlen (vals m b2) =? 0); reflexivity.
Qed.

Lemma pack_not_two l : (2 <= length l)%nat -> pack l = AArr l.
Proof. destruct l as [|a [|b l]]; cbn; auto; lia. Qed.

Lemma nn_val (m : Z -> any) f : is_nil (m f) = false -> nn (m f) = [m f].
Proof. intro E; unfold nn; now rewrite E. Qed.
Lemma nn_nil (m : Z -> any) f : is_nil (m f) = true -> nn (m f) = [] /\ m f = ANil.
Proof. unfold nn. intro E. rewrite E. destruct (m f); cbn in *; auto; discriminate. Qed.
Lemma is_nil_eq a : is_nil a = true -> a = ANil.
Proof. destruct a; cbn; auto; discriminate. Qed.

Lemma vals_mid m b1 f b2 : vals m (b1 ++ f :: b2) = vals m b1 ++ nn (m f) ++ vals m b2.
Proof. now rewrite vals_app. Qed.

Lemma getField_ok o m f : Inv o m -> In f bits -> getField o f = Some (m f).
Proof.
  intros [Hh Hs] Hf. unfold getField. rewrite Hh by assumption.
  destruct (is_nil (m f)) eqn:En; cbn [negb]; [now rewrite (is_nil_eq _ En)|].
  destruct (bits_split f Hf) as (b1 & b2 & E & H1 & H2).
  rewrite (fieldIndex_eq o m f b1 b2) by assumption.
  rewrite Hs, E, vals_mid, nn_val by assumption.
  pose proof (zlen_nonneg (vals m b1)); pose proof (zlen_nonneg (vals m b2)).
  destruct (vals m b1) as [|x v1] eqn:V1.
  - cbn [zlen length Z.of_nat Z.eqb]. destruct (vals m b2) as [|y v2]; [reflexivity|].
    rewrite zlen_cons. destruct (Z.eqb_spec (1 + zlen v2) 0); [pose proof (zlen_nonneg v2); lia|]. reflexivity.
  - rewrite zlen_cons in *. destruct (Z.eqb_spec (1 + zlen v1) 0); [pose proof (zlen_nonneg v1); lia|].
    destruct (Z.eqb_spec (1 + zlen v1) (-1)); [pose proof (zlen_nonneg v1); lia|].
    rewrite pack_not_two by (cbn [app length]; rewrite app_length; cbn; lia). cbn [as_array obind].
    apply zget_app. now rewrite zlen_cons.
Qed.

Lemma lor_has o f st : In f bits -> forall g, In g bits ->
  hasField (mkC st (Z.lor (flags o) f)) g = (g =? f) || hasField o g.
Proof.
  intros Hf g Hg. destruct (bits_pow f Hf) as (k & -> & Hk). destruct (bits_pow g Hg) as (n & -> & Hn).
  rewrite !hasField_bit by lia. cbn [flags]. rewrite Z.lor_spec, Z.pow2_bits_eqb by lia.
  destruct (Z.eqb_spec (2 ^ n) (2 ^ k)) as [E|E].
  - apply Z.pow_inj_r in E; [|lia..]. subst. rewrite Z.eqb_refl. now rewrite orb_true_r.
  - destruct (Z.eqb_spec k n); [congruence|]. apply orb_false_r.
Qed.
Lemma ldiff_has o f st : In f bits -> forall g, In g bits ->
  hasField (mkC st (Z.land (flags o) (Z.lnot f))) g = negb (g =? f) && hasField o g.
Proof.
  intros Hf g Hg. destruct (bits_pow f Hf) as (k & -> & Hk). destruct (bits_pow g Hg) as (n & -> & Hn).
  rewrite !hasField_bit by lia. cbn [flags]. rewrite Z.land_spec, Z.lnot_spec, Z.pow2_bits_eqb by lia.
  destruct (Z.eqb_spec (2 ^ n) (2 ^ k)) as [E|E].
  - apply Z.pow_inj_r in E; [|lia..]. subst. rewrite Z.eqb_refl. now rewrite andb_false_r.
  - destruct (Z.eqb_spec k n); [congruence|]. cbn. apply andb_true_r.
Qed.

Lemma upd_same m f v : upd m f v f = v.
Proof. unfold upd. now rewrite Z.eqb_refl. Qed.
Lemma vals_upd_out m f v bs : ~ In f bs -> vals (upd m f v) bs = vals m bs.
Proof.
  intro H. unfold vals. induction bs as [|b bs IH]; [reflexivity|]. cbn [flat_map].
  rewrite IH by firstorder. f_equal. unfold upd. destruct (Z.eqb_spec b f); [subst; firstorder|reflexivity].
Qed.

Lemma zset_nils (pre : list any) n v : zset (pre ++ repeat ANil (S n)) (zlen pre) v = Some ((pre ++ [v]) ++ repeat ANil n).
Proof.
  cbn [repeat]. erewrite zset_app by reflexivity. now rewrite <- app_assoc.
Qed.

Lemma add_loop_plain o m f v bs : (forall b, In b bs -> hasField o b = negb (is_nil (m b)) /\ b <> f) ->
  forall s1 s3 pre n,
  add_loop o bs f v (s1 ++ vals m bs ++ s3) (pre ++ repeat ANil (length (vals m bs) + n)) (zlen s1) (zlen pre)
  = Some ((pre ++ vals m bs) ++ repeat ANil n).
Proof.
  induction bs as [|b bs IH]; intros H s1 s3 pre n; cbn [add_loop vals flat_map].
  - cbn [length Nat.add]. now rewrite app_nil_r.
  - destruct (H b (or_introl eq_refl)) as [Hb Hne]. destruct (Z.eqb_spec b f); [congruence|]. rewrite Hb.
    fold (vals m bs). unfold nn. destruct (is_nil (m b)); cbn [negb app].
    + apply IH. firstorder.
    + rewrite (zget_app s1 (m b)) by reflexivity. cbn [obind length Nat.add].
      rewrite zset_nils. cbn [obind].
      specialize (IH ltac:(firstorder) (s1 ++ [m b]) s3 (pre ++ [m b]) n).
      replace (zlen s1 + 1) with (zlen (s1 ++ [m b])) by zl.
      replace (zlen pre + 1) with (zlen (pre ++ [m b])) by zl.
      rewrite <- (app_assoc s1) in IH. cbn [app] in IH. rewrite IH. now rewrite <- !app_assoc.
Qed.
(** the same loop continued with [rest] afterwards *)
Lemma add_loop_pre o m f v bs rest : (forall b, In b bs -> hasField o b = negb (is_nil (m b)) /\ b <> f) ->
  forall s1 s3 pre n,
  add_loop o (bs ++ rest) f v (s1 ++ vals m bs ++ s3) (pre ++ repeat ANil (length (vals m bs) + n)) (zlen s1) (zlen pre)
  = add_loop o rest f v (s1 ++ vals m bs ++ s3) ((pre ++ vals m bs) ++ repeat ANil n)
      (zlen (s1 ++ vals m bs)) (zlen (pre ++ vals m bs)).
Proof.
  induction bs as [|b bs IH]; intros H s1 s3 pre n; cbn [add_loop vals flat_map app].
  - cbn [length Nat.add]. now rewrite !app_nil_r.
  - destruct (H b (or_introl eq_refl)) as [Hb Hne]. destruct (Z.eqb_spec b f); [congruence|]. rewrite Hb.
    fold (vals m bs). unfold nn. destruct (is_nil (m b)); cbn [negb app].
    + apply IH. firstorder.
    + rewrite (zget_app s1 (m b)) by reflexivity. cbn [obind length Nat.add].
      rewrite zset_nils. cbn [obind].
      specialize (IH ltac:(firstorder) (s1 ++ [m b]) s3 (pre ++ [m b]) n).
      replace (zlen s1 + 1) with (zlen (s1 ++ [m b])) by zl.
      replace (zlen pre + 1) with (zlen (pre ++ [m b])) by zl.
      rewrite <- !(app_assoc s1) in IH. cbn [app] in IH. rewrite IH. now rewrite <- !app_assoc.
Qed.
Lemma remove_loop_pre o m f bs rest : (forall b, In b bs -> hasField o b = negb (is_nil (m b)) /\ b <> f) ->
  forall s1 s3 pre n,
  remove_loop o (bs ++ rest) f (s1 ++ vals m bs ++ s3) (pre ++ repeat ANil (length (vals m bs) + n)) (zlen s1) (zlen pre)
  = remove_loop o rest f (s1 ++ vals m bs ++ s3) ((pre ++ vals m bs) ++ repeat ANil n)
      (zlen (s1 ++ vals m bs)) (zlen (pre ++ vals m bs)).
Proof.
  induction bs as [|b bs IH]; intros H s1 s3 pre n; cbn [remove_loop vals flat_map app].
  - cbn [length Nat.add]. now rewrite !app_nil_r.
  - destruct (H b (or_introl eq_refl)) as [Hb Hne]. destruct (Z.eqb_spec b f); [congruence|]. rewrite Hb.
    fold (vals m bs). unfold nn. destruct (is_nil (m b)); cbn [negb app].
    + apply IH. firstorder.
    + rewrite (zget_app s1 (m b)) by reflexivity. cbn [obind length Nat.add].
      rewrite zset_nils. cbn [obind].
      specialize (IH ltac:(firstorder) (s1 ++ [m b]) s3 (pre ++ [m b]) n).
      replace (zlen s1 + 1) with (zlen (s1 ++ [m b])) by zl.
      replace (zlen pre + 1) with (zlen (pre ++ [m b])) by zl.
      rewrite <- !(app_assoc s1) in IH. cbn [app] in IH. rewrite IH. now rewrite <- !app_assoc.
Qed.

Lemma obind_some {X Y} (e : option X) (k : X -> option Y) y :
  obind e k = Some y -> exists x, e = Some x /\ k x = Some y.
Proof. destruct e; cbn; [eauto|discriminate]. Qed.
Lemma addField_flags o f v o' : addField o f v = Some o' -> flags o' = Z.lor (flags o) f.
Proof. unfold addField. intro H. apply obind_some in H as (st & _ & H). injection H as <-. reflexivity. Qed.
Lemma removeField_flags o f o' : removeField o f = Some o' -> flags o' = Z.land (flags o) (Z.lnot f).
Proof. unfold removeField. intro H. apply obind_some in H as (st & _ & H). injection H as <-. reflexivity. Qed.

Section Split.
  Variables (o : cobj) (m : Z -> any) (f : Z) (b1 b2 : list Z).
  Hypothesis Hinv : Inv o m.
  Hypothesis E : bits = b1 ++ f :: b2.
  Hypothesis H1 : forall b, In b b1 -> b < f.
  Hypothesis H2 : forall b, In b b2 -> f < b.

  Lemma Hf : In f bits.
  Proof. rewrite E, in_app_iff; cbn; auto. Qed.
  Lemma Hb1 b : In b b1 -> hasField o b = negb (is_nil (m b)) /\ b <> f.
  Proof. intro H. split; [|specialize (H1 b H); lia]. apply Hinv. rewrite E, in_app_iff; auto. Qed.
  Lemma Hb2 b : In b b2 -> hasField o b = negb (is_nil (m b)) /\ b <> f.
  Proof. intro H. split; [|specialize (H2 b H); lia]. apply Hinv. rewrite E, in_app_iff; cbn; auto. Qed.
  Lemma nf1 : ~ In f b1. Proof. intro H. specialize (H1 f H). lia. Qed.
  Lemma nf2 : ~ In f b2. Proof. intro H. specialize (H2 f H). lia. Qed.

  Lemma vals_upd_split v : vals (upd m f v) bits = vals m b1 ++ nn v ++ vals m b2.
  Proof. rewrite E, vals_mid, upd_same, !vals_upd_out by (apply nf1 || apply nf2). reflexivity. Qed.

  Lemma count_eq : OnesCount (Z.land (flags o) fields_mask) = zlen (vals m b1) + zlen (nn (m f)) + zlen (vals m b2).
  Proof.
    rewrite onescount_fields, (zlen_filter_vals o m) by apply Hinv.
    rewrite E, vals_mid, !zlen_app. lia.
  Qed.

  Lemma addField_ok v : m f = ANil -> is_nil v = false ->
    exists o', addField o f v = Some o' /\ Inv o' (upd m f v).
  Proof.
    intros Hm Hv. unfold addField. rewrite count_eq, Hm.
    destruct Hinv as [Hh Hs]. rewrite E, vals_mid, Hm in Hs. cbn [nn is_nil zlen length Z.of_nat app] in *.
    assert (Hgoal : forall st, st = pack (vals m b1 ++ v :: vals m b2) ->
      Inv (mkC st (Z.lor (flags o) f)) (upd m f v)).
    { intros st ->. split.
      - intros g Hg. rewrite lor_has by (auto using Hf). unfold upd.
        destruct (Z.eqb_spec g f); [now rewrite Hv|]. cbn [orb]. now apply Hh.
      - cbn [storage]. rewrite vals_upd_split. unfold nn. rewrite Hv. reflexivity. }
    rewrite (fieldIndex_eq o m f b1 b2) by assumption.
    destruct (Z.eqb_spec (zlen (vals m b1) + 0 + zlen (vals m b2)) 0) as [E0|N0].
    { destruct (vals m b1), (vals m b2); try (zl). cbn [obind]. eexists; split; [reflexivity|]. apply Hgoal. reflexivity. }
    destruct (Z.eqb_spec (zlen (vals m b1) + 0 + zlen (vals m b2)) 1) as [E1|N1].
    { rewrite Hs. destruct (vals m b1) as [|x [|y v1]]; destruct (vals m b2) as [|z [|w v2]]; try zl;
      cbn [zlen length Z.of_nat Z.eqb Pos.of_succ_nat app pack obind]; eexists; (split; [reflexivity|]); apply Hgoal; reflexivity. }
    rewrite Hs, pack_not_two by zl. cbn [as_array obind].
    assert (L : Z.to_nat (zlen (vals m b1) + 0 + zlen (vals m b2) + 1) = (length (vals m b1) + (1 + (length (vals m b2) + 0)))%nat) by zl.
    rewrite L, E.
    pose proof (add_loop_pre o m f v b1 (f :: b2) Hb1 [] (vals m b2) [] (1 + (length (vals m b2) + 0))) as A.
    cbn [app zlen length Z.of_nat] in A. change (Z.of_nat (@length any [])) with 0 in A. rewrite A. clear A.
    cbn [add_loop]. rewrite Z.eqb_refl. cbn [Nat.add]. rewrite zset_nils. cbn [obind].
    pose proof (add_loop_plain o m f v b2 Hb2 (vals m b1) [] (vals m b1 ++ [v]) 0) as A.
    rewrite app_nil_r in A. replace (zlen (vals m b1 ++ [v])) with (zlen (vals m b1) + 1) in A by zl.
    unfold zlen in *. rewrite A. cbn [obind repeat]. rewrite app_nil_r.
    eexists; split; [reflexivity|]. apply Hgoal. rewrite pack_not_two by zl. now rewrite <- app_assoc.
  Qed.

  Lemma removeField_ok : is_nil (m f) = false ->
    exists o', removeField o f = Some o' /\ Inv o' (upd m f ANil).
  Proof.
    intros Hm. unfold removeField. rewrite count_eq, nn_val by assumption. change (zlen [m f]) with 1.
    destruct Hinv as [Hh Hs]. rewrite E, vals_mid, nn_val in Hs by assumption.
    assert (Hgoal : forall st, st = pack (vals m b1 ++ vals m b2) ->
      Inv (mkC st (Z.land (flags o) (Z.lnot f))) (upd m f ANil)).
    { intros st ->. split.
      - intros g Hg. rewrite ldiff_has by (auto using Hf). unfold upd.
        destruct (Z.eqb_spec g f); [reflexivity|]. cbn [negb andb]. now apply Hh.
      - cbn [storage]. rewrite vals_upd_split. reflexivity. }
    rewrite (fieldIndex_eq o m f b1 b2) by assumption.
    destruct (Z.eqb_spec (zlen (vals m b1) + 1 + zlen (vals m b2)) 1) as [E0|N0].
    { destruct (vals m b1), (vals m b2); try (zl). cbn [obind]. eexists; split; [reflexivity|]. apply Hgoal. reflexivity. }
    destruct (Z.eqb_spec (zlen (vals m b1) + 1 + zlen (vals m b2)) 2) as [E1|N1].
    { rewrite Hs. destruct (vals m b1) as [|x [|y v1]]; destruct (vals m b2) as [|z [|w v2]]; try zl;
      cbn [zlen length Z.of_nat Z.eqb Pos.of_succ_nat app pack obind as_array zget Z.ltb Z.compare Z.to_nat Pos.to_nat Pos.iter_op nth_error];
      eexists; (split; [reflexivity|]); apply Hgoal; reflexivity. }
    rewrite Hs, pack_not_two by zl. cbn [as_array obind].
    assert (L : Z.to_nat (zlen (vals m b1) + 1 + zlen (vals m b2) - 1) = (length (vals m b1) + (length (vals m b2) + 0))%nat) by zl.
    rewrite L, E.
    pose proof (remove_loop_pre o m f b1 (f :: b2) Hb1 [] ([m f] ++ vals m b2) [] (length (vals m b2) + 0)) as A.
    cbn [app zlen length Z.of_nat] in A. change (Z.of_nat (@length any [])) with 0 in A. cbn [app]. rewrite A. clear A.
    cbn [remove_loop]. rewrite Z.eqb_refl.
    pose proof (remove_loop_pre o m f b2 [] Hb2 (vals m b1 ++ [m f]) [] (vals m b1) 0) as A.
    rewrite !app_nil_r in A. replace (zlen (vals m b1 ++ [m f])) with (zlen (vals m b1) + 1) in A by zl.
    rewrite <- app_assoc in A. cbn [app] in A.
    unfold zlen in *. rewrite A. cbn [remove_loop obind repeat].
    eexists; split; [reflexivity|]. apply Hgoal. rewrite pack_not_two by zl. reflexivity.
  Qed.

  Lemma setField_split v : exists o', setField o f v = Some o' /\ Inv o' (upd m f v)
     /\ (forall k, ~ (1 <= k <= 8) -> 0 <= k -> Z.testbit (flags o') k = Z.testbit (flags o) k).
  Proof.
    destruct (bits_pow f Hf) as (kf & Ef & Hkf).
    unfold setField. rewrite (proj1 Hinv) by apply Hf.
    destruct (is_nil (m f)) eqn:Em; cbn [negb].
    - destruct (is_nil v) eqn:Ev.
      + apply is_nil_eq in Em, Ev. subst v. exists o. split; [reflexivity|]. split; [|reflexivity].
        destruct Hinv as [Hh Hs]. split.
        * intros g Hg. rewrite Hh by assumption. unfold upd. destruct (Z.eqb_spec g f); [subst; now rewrite Em|reflexivity].
        * rewrite vals_upd_split, Hs, E, vals_mid, Em. reflexivity.
      + apply is_nil_eq in Em. destruct (addField_ok v Em Ev) as (o' & Ho & Hi). exists o'. split; [assumption|].
        split; [assumption|]. intros k Hk Hk0. rewrite (addField_flags _ _ _ _ Ho).
        rewrite Z.lor_spec, Ef, Z.pow2_bits_false by lia. apply orb_false_r.
    - destruct (is_nil v) eqn:Ev.
      + apply is_nil_eq in Ev. subst v. destruct (removeField_ok Em) as (o' & Ho & Hi). exists o'. split; [assumption|].
        split; [assumption|]. intros k Hk Hk0. rewrite (removeField_flags _ _ _ Ho).
        rewrite Z.land_spec, Z.lnot_spec, Ef, Z.pow2_bits_false by lia. apply andb_true_r.
      + destruct Hinv as [Hh Hs]. rewrite E, vals_mid, nn_val in Hs by assumption.
        rewrite (fieldIndex_eq o m f b1 b2) by assumption.
        assert (Hgoal : forall st, st = pack (vals m b1 ++ [v] ++ vals m b2) -> Inv (mkC st (flags o)) (upd m f v)).
        { intros st ->. split.
          - intros g Hg. change (hasField o g = negb (is_nil (upd m f v g))). rewrite Hh by assumption.
            unfold upd. destruct (Z.eqb_spec g f); [subst; now rewrite Em, Ev|reflexivity].
          - cbn [storage]. rewrite vals_upd_split. unfold nn. now rewrite Ev. }
        cbv zeta.
        destruct (zlen (vals m b1) =? 0) eqn:Z1.
        * destruct (vals m b1) eqn:V1; [|zl]. destruct (zlen (vals m b2) =? 0) eqn:Z2.
          -- destruct (vals m b2) eqn:V2; [|zl]. cbn [Z.eqb]. eexists; split; [reflexivity|]. split; [now apply Hgoal|reflexivity].
          -- destruct (vals m b2) eqn:V2; [zl|]. cbn [Z.eqb]. rewrite Hs. cbn [app pack as_array obind].
             match goal with |- context [zset (?x :: ?l) 0 ?v] => rewrite (zset_app [] x l 0 v eq_refl : zset (x :: l) 0 v = _) end. cbn [obind]. eexists; split; [reflexivity|].
             split; [now apply Hgoal|reflexivity].
        * destruct (Z.eqb_spec (zlen (vals m b1)) (-1)); [zl|].
          rewrite Hs. destruct (vals m b1) as [|x v1] eqn:V1; [zl|].
          rewrite pack_not_two by zl. cbn [as_array obind].
          cbn [app]. rewrite (app_comm_cons v1 _ x). rewrite zset_app by reflexivity. cbn [obind].
          eexists; split; [reflexivity|]. split; [|reflexivity]. apply Hgoal. rewrite pack_not_two by zl. reflexivity.
  Qed.
End Split.

Lemma setField_ok o m f v : Inv o m -> In f bits ->
  exists o', setField o f v = Some o' /\ Inv o' (upd m f v)
    /\ (forall k, ~ (1 <= k <= 8) -> 0 <= k -> Z.testbit (flags o') k = Z.testbit (flags o) k).
Proof.
  intros H Hf. destruct (bits_split f Hf) as (b1 & b2 & E & H1 & H2). eapply setField_split; eassumption.
Qed.

Definition InvV (o : cobj) (s : view) : Prop :=
  Inv o (field s) /\ EDeliver o = deliver s /\ EInternalContainerFeatureID o = containerFeatureID s.

Lemma deliver_bit o : EDeliver o = Z.testbit (flags o) 0.
Proof. apply (hasField_bit o 0). lia. Qed.

Lemma hi_eq x y : (forall k, 16 <= k -> Z.testbit x k = Z.testbit y k) -> Z.shiftr x 16 = Z.shiftr y 16.
Proof.
  intro H. apply Z.bits_inj'. intros n Hn. rewrite !Z.shiftr_spec by lia. apply H. lia.
Qed.

Lemma deliver_has o b f : In f bits -> hasField (ESetDeliver o b) f = hasField o f.
Proof.
  intro Hf. destruct (bits_pow f Hf) as (k & -> & Hk). rewrite !hasField_bit by lia.
  unfold ESetDeliver, deliver_flag. change 1 with (2 ^ 0). destruct b; cbn [flags].
  - rewrite Z.lor_spec, Z.pow2_bits_false by lia. apply orb_false_r.
  - rewrite Z.land_spec, Z.lnot_spec, Z.pow2_bits_false by lia. apply andb_true_r.
Qed.

Lemma step_ok o s op : InvV o s -> op_valid op ->
  match op with SetContainer _ _ => field s properties_flag = ANil | _ => True end ->
  exists o', cstep o op = Some o' /\ InvV o' (vstep s op).
Proof.
  intros (Hi & Hd & Hc) Hv Hp. destruct op as [f v|b|c id]; cbn [cstep vstep].
  - destruct (setField_ok o _ f v Hi Hv) as (o' & Ho & Hi' & Hb). exists o'. split; [assumption|].
    split; [assumption|]. cbn [deliver containerFeatureID]. rewrite <- Hd, <- Hc. split.
    + rewrite !deliver_bit. apply Hb; lia.
    + apply hi_eq. intros k Hk. apply Hb; lia.
  - eexists; split; [reflexivity|]. split; [|split].
    + destruct Hi as [Hh Hs]. split.
      * intros f Hf. rewrite deliver_has by assumption. apply Hh, Hf.
      * unfold ESetDeliver. destruct b; exact Hs.
    + cbn [deliver]. rewrite deliver_bit. unfold ESetDeliver, deliver_flag. change 1 with (2 ^ 0).
      destruct b; cbn [flags].
      * rewrite Z.lor_spec, Z.pow2_bits_true by lia. apply orb_true_r.
      * rewrite Z.land_spec, Z.lnot_spec, Z.pow2_bits_true by lia. apply andb_false_r.
    + cbn [containerFeatureID]. rewrite <- Hc. apply hi_eq. intros k Hk.
      unfold ESetDeliver, deliver_flag. change 1 with (2 ^ 0). destruct b; cbn [flags].
      * rewrite Z.lor_spec, Z.pow2_bits_false by lia. apply orb_false_r.
      * rewrite Z.land_spec, Z.lnot_spec, Z.pow2_bits_false by lia. apply andb_true_r.
  - destruct (setField_ok o _ container_flag c Hi) as (o' & Ho & Hi' & Hb); [cbn; auto|].
    unfold ESetInternalContainer. rewrite Ho. cbn [obind]. eexists; split; [reflexivity|].
    assert (B : forall k, 0 <= k < 8 -> Z.testbit (Z.lor (Z.shiftl id 16) (Z.land (flags o') 255)) k = Z.testbit (flags o') k).
    { intros k Hk. rewrite Z.lor_spec, Z.shiftl_spec_low, Z.land_spec by lia. cbn [orb].
      replace (Z.testbit 255 k) with true; [apply andb_true_r|].
      change 255 with (Z.ones 8). symmetry. apply Z.ones_spec_low. lia. }
    assert (B2 : forall k, 8 <= k < 16 -> Z.testbit (Z.lor (Z.shiftl id 16) (Z.land (flags o') 255)) k = false).
    { intros k Hk. rewrite Z.lor_spec, Z.shiftl_spec_low, Z.land_spec by lia. cbn [orb].
      change 255 with (Z.ones 8). rewrite Z.ones_spec_high by lia. apply andb_false_r. }
    split; [|split].
    + destruct Hi' as [Hh Hs]. split; [|exact Hs].
      intros f Hf. destruct (bits_pow f Hf) as (k & -> & Hk). rewrite hasField_bit by lia. cbn [flags].
      destruct (Z.eq_dec k 8) as [->|].
      * rewrite B2 by lia. cbn [field]. change (2 ^ 8) with properties_flag.
        unfold upd. change (properties_flag =? container_flag) with false. cbv iota. now rewrite Hp.
      * rewrite B by lia. rewrite <- hasField_bit by lia. now apply Hh.
    + cbn [deliver]. rewrite <- Hd, !deliver_bit. cbn [flags]. rewrite B by lia. apply Hb; lia.
    + cbn [containerFeatureID]. unfold EInternalContainerFeatureID. cbn [flags].
      apply Z.bits_inj'. intros n Hn. rewrite Z.shiftr_spec, Z.lor_spec, Z.land_spec, Z.shiftl_spec by lia.
      change 255 with (Z.ones 8). rewrite Z.ones_spec_high by lia. rewrite andb_false_r, orb_false_r.
      f_equal. lia.
Qed.

Lemma run_ok o s ops : InvV o s -> Forall op_valid ops -> props_ok s ops ->
  exists o', crun o ops = Some o' /\ InvV o' (vrun s ops).
Proof.
  revert o s; induction ops as [|op ops IH]; intros o s Hi Hv Hp; cbn [crun vrun fold_left].
  - eauto.
  - inversion Hv; subst. destruct Hp as [Hp1 Hp2].
    destruct (step_ok o s op Hi) as (o' & -> & Hi'); auto. cbn [obind]. now apply IH.
Qed.

Lemma Inv_init : InvV Initialize view0.
Proof.
  split; [split|split].
  - intros f [<-|[<-|[<-|[<-|[<-|[<-|[<-|[<-|[]]]]]]]]]; reflexivity.
  - reflexivity.
  - reflexivity.
  - reflexivity.
Qed.

Lemma InvV_reads o s : InvV o s -> reads_as o s.
Proof.
  intros (Hi & Hd & Hc). split; [|split; [|split; assumption]].
  - intros f Hf. now apply getField_ok.
  - apply Hi.
Qed.

Lemma compact_is_record ops : Forall op_valid ops -> props_ok view0 ops ->
  exists o, crun Initialize ops = Some o /\ reads_as o (vrun view0 ops).
Proof.
  intros Hv Hp. destruct (run_ok _ _ ops Inv_init Hv Hp) as (o & Ho & Hi). exists o. split; [assumption|].
  now apply InvV_reads.
Qed.
