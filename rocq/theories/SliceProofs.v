From Verif Require Import Base ListModel ListProofs SliceModel SliceSpec.

Lemma skipn_skipn_nat {X} a b (l : list X) : skipn a (skipn b l) = skipn (b + a) l.
Proof. revert l. induction b as [|b IH]; intro l; [reflexivity|]. destruct l; cbn; [now rewrite skipn_nil|apply IH]. Qed.

Section Memory.
  Context {A : Type}.
  Notation heap := (heap A).

  Record valid (H : heap) (s : slice) : Prop := {
    v_arr : (arr s < next H)%nat;
    v_len : (len s <= cap s)%nat;
    v_cap : (off s + cap s <= length (arrays H (arr s)))%nat }.
  Definition within (s : slice) (a i : nat) : Prop := a = arr s /\ (off s <= i < off s + cap s)%nat.
  Definition spare (s : slice) (a i : nat) : Prop := a = arr s /\ (off s + len s <= i < off s + cap s)%nat.
  (** memory outside W is as before *)
  Record frame (H H' : heap) (W : nat -> nat -> Prop) : Prop := {
    fr_next : (next H <= next H')%nat;
    fr_size : forall a, (a < next H)%nat -> length (arrays H' a) = length (arrays H a);
    fr_cell : forall a i, (a < next H)%nat -> ~ W a i -> nth_error (arrays H' a) i = nth_error (arrays H a) i }.
  Definition same_place (s t : slice) : Prop := arr s = arr t /\ off s = off t /\ cap s = cap t.

  Lemma frame_refl H W : frame H H W.
  Proof. now constructor. Qed.
  Lemma frame_mono H H' (V W : nat -> nat -> Prop) : (forall a i, V a i -> W a i) -> frame H H' V -> frame H H' W.
  Proof. intros HV [N S C]. constructor; auto. Qed.
  Lemma frame_trans H H1 H2 W : frame H H1 W -> frame H1 H2 W -> frame H H2 W.
  Proof.
    intros [N1 S1 C1] [N2 S2 C2]. constructor; [lia| |].
    - intros a Ha. rewrite S2, S1; auto. lia.
    - intros a i Ha Hw. rewrite C2, C1; auto. lia.
  Qed.
  (** writes to arrays that did not exist do not count *)
  Lemma frame_fresh H H1 H2 (V W : nat -> nat -> Prop) : frame H H1 W -> frame H1 H2 V ->
    (forall a i, V a i -> W a i \/ (next H <= a)%nat) -> frame H H2 W.
  Proof.
    intros [N1 S1 C1] [N2 S2 C2] HV. constructor; [lia| |].
    - intros a Ha. rewrite S2, S1; auto. lia.
    - intros a i Ha Hw. rewrite C2, C1; auto; [lia|]. intro Hv. destruct (HV _ _ Hv); [auto|lia].
  Qed.
  Lemma valid_frame H H' W s : frame H H' W -> valid H s -> valid H' s.
  Proof. intros [N S _] [V1 V2 V3]. constructor; [lia|assumption|]. rewrite S; auto. Qed.

  Lemma read_length H s : valid H s -> length (read H s) = len s.
  Proof. intros [V1 V2 V3]. unfold read. rewrite firstn_length, skipn_length. lia. Qed.
  Lemma read_nth H s i : valid H s -> nth_error (read H s) i = if (i <? len s)%nat then nth_error (arrays H (arr s)) (off s + i) else None.
  Proof. intros _. unfold read. rewrite nth_error_firstn_if. destruct (Nat.ltb_spec i (len s)); [|reflexivity]. now rewrite nth_error_skipn_if. Qed.
  Lemma read_frame H H' W s : frame H H' W -> (arr s < next H)%nat ->
    (forall i, (i < len s)%nat -> ~ W (arr s) (off s + i)%nat) -> read H' s = read H s.
  Proof.
    intros [N S C] Ha Hw. apply nth_error_ext. intro i. unfold read. rewrite !nth_error_firstn_if.
    destruct (Nat.ltb_spec i (len s)); [|reflexivity]. rewrite !nth_error_skipn_if. apply C; auto.
  Qed.

  (** ** the primitives *)
  Lemma write_frame H a pos vs : (pos + length vs <= length (arrays H a))%nat ->
    frame H (write H a pos vs) (fun b i => b = a /\ (pos <= i < pos + length vs)%nat).
  Proof.
    intro Hl. constructor; cbn; [lia| |].
    - intros b Hb. destruct (Nat.eqb_spec b a) as [->|]; [|reflexivity].
      rewrite !app_length, firstn_length, skipn_length. lia.
    - intros b i Hb Hw. destruct (Nat.eqb_spec b a) as [->|]; [|reflexivity].
      rewrite nth_error_app_if, firstn_length. destruct (Nat.ltb_spec i (Nat.min pos (length (arrays H a)))).
      + rewrite nth_error_firstn_if. destruct (Nat.ltb_spec i pos); [reflexivity|lia].
      + rewrite nth_error_app_if. destruct (Nat.ltb_spec (i - Nat.min pos (length (arrays H a))) (length vs)).
        * exfalso. apply Hw. split; [reflexivity|]. lia.
        * rewrite nth_error_skipn_if. f_equal. lia.
  Qed.
  Lemma read_write H s k vs : valid H s -> (k + length vs <= len s)%nat ->
    read (write H (arr s) (off s + k) vs) s = firstn k (read H s) ++ vs ++ skipn (k + length vs) (read H s).
  Proof.
    intros V Hk. apply nth_error_ext. intro i. unfold read at 1. cbn. rewrite Nat.eqb_refl. destruct V as [V1 V2 V3].
    rewrite nth_error_firstn_if, nth_error_skipn_if, !nth_error_app_if, !firstn_length, read_length by (constructor; assumption).
    rewrite !nth_error_firstn_if, !nth_error_skipn_if, !read_nth by (constructor; assumption).
    repeat match goal with |- context [(?x <? ?y)%nat] => destruct (Nat.ltb_spec x y) end; try lia; try reflexivity; try (f_equal; lia).
    all: symmetry; apply nth_error_None; lia.
  Qed.

  Context (nilv : A). Notation alloc := (alloc nilv).
  Lemma alloc_ok H vs c : (length vs <= c)%nat -> let '(H', s') := alloc H vs c in
    read H' s' = vs /\ valid H' s' /\ frame H H' (fun _ _ => False) /\ (next H <= arr s')%nat /\ len s' = length vs.
  Proof.
    intro Hc. cbn. split.
    { unfold read. cbn. rewrite Nat.eqb_refl. cbn. now rewrite firstn_app, firstn_all, Nat.sub_diag, firstn_O, app_nil_r. }
    split; [|split; [|split; [lia|reflexivity]]].
    - constructor; cbn; [lia|lia|]. rewrite Nat.eqb_refl, app_length, repeat_length. lia.
    - constructor; cbn; [lia| |]; intros; destruct (Nat.eqb_spec a (next H)); try reflexivity; lia.
  Qed.
  Context (grow : nat -> nat -> nat). Notation append := (append nilv grow).
  Lemma append_ok H s vs : valid H s -> let '(H', s') := append H s vs in
    read H' s' = read H s ++ vs /\ valid H' s' /\ frame H H' (spare s) /\ (same_place s s' \/ (next H <= arr s')%nat)
    /\ len s' = (len s + length vs)%nat.
  Proof.
    intro V. pose proof V as [V1 V2 V3]. unfold SliceModel.append. destruct (Nat.leb_spec (len s + length vs) (cap s)) as [Hc|Hc].
    - set (s' := Slice (arr s) (off s) (len s + length vs) (cap s)).
      assert (V' : valid H s') by (constructor; cbn; assumption).
      assert (F : frame H (write H (arr s) (off s + len s) vs) (spare s)).
      { eapply frame_mono; [|apply write_frame; lia]. intros a i [-> ?]. split; [reflexivity|lia]. }
      split; [|split; [exact (valid_frame _ _ _ _ F V')|split; [assumption|split; [left; repeat split|reflexivity]]]].
      change (write H (arr s) (off s + len s) vs) with (write H (arr s') (off s' + len s) vs).
      rewrite read_write by (cbn; auto).
      rewrite (skipn_all2 (read H s')) by (rewrite read_length by assumption; cbn; lia). rewrite app_nil_r. f_equal.
      unfold read. cbn. rewrite firstn_firstn. f_equal. lia.
    - set (c := Nat.max (len s + length vs) (grow (cap s) (len s + length vs))).
      pose proof (alloc_ok H (read H s ++ vs) c) as Ha. cbv beta iota zeta delta [SliceModel.alloc] in Ha |- *.
      rewrite app_length, (read_length H s V) in Ha |- *. specialize (Ha ltac:(lia)). destruct Ha as (R & V' & F & N & L).
      split; [exact R|]. split; [exact V'|]. split; [|split; [right; exact N|exact L]].
      eapply frame_mono; [|exact F]. intros ? ? [].
  Qed.

  Lemma store_ok H s i v : valid H s ->
    match store H s i v with
    | Some H' => zset (read H s) i v = Some (read H' s) /\ frame H H' (within s)
    | None => zset (read H s) i v = None
    end.
  Proof using. clear.
    intro V. pose proof V as [V1 V2 V3]. unfold store, zset, zlen. rewrite read_length by assumption.
    destruct ((0 <=? i) && (i <? Z.of_nat (len s))) eqn:E; [|reflexivity]. split.
    - rewrite read_write by (cbn; auto; lia). reflexivity.
    - eapply frame_mono; [|apply write_frame; cbn; lia]. intros a j [-> ?]. cbn in *. split; [reflexivity|lia].
  Qed.
  Lemma from_ok H s a : valid H s ->
    match from s a with
    | Some t => zslice (read H s) a (zlen (read H s)) = Some (read H t) /\ valid H t /\ 0 <= a <= Z.of_nat (len s)
                /\ arr t = arr s /\ off t = (off s + Z.to_nat a)%nat /\ len t = (len s - Z.to_nat a)%nat
    | None => zslice (read H s) a (zlen (read H s)) = None
    end.
  Proof.
    intro V. pose proof V as [V1 V2 V3]. unfold from, reslice, zslice, zlen. rewrite read_length by assumption.
    repeat match goal with |- context [?x <=? ?y] => destruct (Z.leb_spec x y) end; cbn [andb]; try lia; try reflexivity.
    split; [|split; [|cbn; repeat split; lia]].
    - f_equal. unfold read. cbn. rewrite skipn_firstn_comm, firstn_firstn, skipn_skipn_nat. f_equal; lia.
    - constructor; cbn; lia.
  Qed.
  Lemma pre_ok H s i : valid H s -> 0 <= i <= Z.of_nat (len s) ->
    exists t, reslice s 0 i = Some t /\ zslice (read H s) 0 i = Some (read H t) /\ valid H t /\ same_place s t /\ len t = Z.to_nat i.
  Proof.
    intros V Hi. pose proof V as [V1 V2 V3]. unfold reslice, zslice, zlen. rewrite read_length by assumption.
    repeat match goal with |- context [?x <=? ?y] => destruct (Z.leb_spec x y) end; cbn [andb]; try lia.
    eexists. split; [reflexivity|]. cbn. rewrite Z.sub_0_r, Nat.add_0_r, Nat.sub_0_r. split; [|split; [|split; [repeat split|reflexivity]]].
    - f_equal. unfold read. cbn. rewrite firstn_firstn. f_equal. lia.
    - constructor; cbn; lia.
  Qed.
  (** a slice of the list, within its length *)
  Lemma mid_ok H s a b : valid H s -> 0 <= a <= b -> b <= Z.of_nat (len s) ->
    exists t, reslice s a b = Some t /\ zslice (read H s) a b = Some (read H t) /\ valid H t /\ len t = Z.to_nat (b - a).
  Proof.
    intros V Ha Hb. pose proof V as [V1 V2 V3]. unfold reslice, zslice, zlen. rewrite read_length by assumption.
    repeat match goal with |- context [?x <=? ?y] => destruct (Z.leb_spec x y) end; cbn [andb]; try lia.
    eexists. split; [reflexivity|]. split; [|split; [|reflexivity]].
    - f_equal. unfold read. cbn. rewrite skipn_firstn_comm, firstn_firstn, skipn_skipn_nat. f_equal; lia.
    - constructor; cbn; lia.
  Qed.
  Lemma copy_ok H s a dst src : valid H s -> from s a = Some dst -> valid H src ->
    zcopy (read H s) a (read H src) = Some (read (copy H dst src) s) /\ frame H (copy H dst src) (within s).
  Proof using. clear.
    intros V Ef Vs. pose proof V as [V1 V2 V3]. pose proof (from_ok H s a V) as Hf. rewrite Ef in Hf.
    destruct Hf as (_ & _ & Ha & E1 & E2 & E3). unfold copy, zcopy, zlen. rewrite E1, E2, E3.
    rewrite !read_length by assumption. destruct (Z.leb_spec 0 a); [|lia]. destruct (Z.leb_spec a (Z.of_nat (len s))); [|lia]. cbn [andb].
    set (n := Nat.min (len s - Z.to_nat a) (len src)).
    assert (Hn : length (firstn n (read H src)) = n) by (rewrite firstn_length, read_length by assumption; lia).
    split.
    - f_equal. rewrite read_write by (rewrite ?Hn; auto; lia). now rewrite Hn.
    - eapply frame_mono; [|apply write_frame; rewrite Hn; lia]. rewrite Hn. intros b j [-> ?]. split; [reflexivity|lia].
  Qed.

  (** ** the operations *)
  (** [X]: what may be written besides the region of s *)
  Record moved (X : nat -> nat -> Prop) (H : heap) (s : slice) (H' : heap) (s' : slice) (l : list A) : Prop := {
    mv_read : read H' s' = l;
    mv_valid : valid H' s';
    mv_frame : frame H H' (fun a i => within s a i \/ X a i);
    mv_place : same_place s s' \/ (next H <= arr s')%nat }.
  Notation nothing := (fun _ _ => False).

  Lemma spare_within s a i : spare s a i -> within s a i.
  Proof using. clear. intros [-> H]. split; [reflexivity|lia]. Qed.
  Lemma moved_append X H s vs : valid H s -> let '(H', s') := append H s vs in moved X H s H' s' (read H s ++ vs).
  Proof.
    intro V. pose proof (append_ok H s vs V) as Ha. destruct (append H s vs) as [H' s']. destruct Ha as (R & V' & F & P & _).
    constructor; auto. eapply frame_mono; [|exact F]. intros a i Hi. left. now apply spare_within.
  Qed.
  Lemma doAdd_ok H s e : valid H s -> exists H' s', doAddH nilv grow H s e = Some (H', s') /\ moved nothing H s H' s' (read H s ++ [e]).
  Proof.
    intro V. unfold doAddH. pose proof (moved_append nothing H s [e] V) as Ha. destruct (append H s [e]) as [H' s']. eauto.
  Qed.
  Lemma same_trans s t u : same_place s t -> same_place t u -> same_place s u.
  Proof using. clear. unfold same_place. intuition congruence. Qed.
  Lemma same_within s t a i : same_place s t -> within t a i -> within s a i.
  Proof using. clear. intros (E1 & E2 & E3) [-> Hi]. split; [congruence|lia]. Qed.

  Lemma doInsert_ok H s i e : valid H s -> 0 <= i <= zlen (read H s) ->
    exists H' s' l cb, doInsertH nilv grow H s i e = Some (H', s') /\ doInsert nilv (read H s) i e = Some (l, cb) /\ moved nothing H s H' s' l.
  Proof.
    intros V Hi. unfold doInsertH, doInsert. pose proof (append_ok H s [nilv] V) as Ha.
    destruct (append H s [nilv]) as [H1 s1]. destruct Ha as (R & V1 & F & P & L). cbv zeta. rewrite <- R. cbn in L.
    assert (Hl : zlen (read H s) = Z.of_nat (len s)) by (unfold zlen; now rewrite read_length). rewrite Hl in Hi.
    pose proof (from_ok H1 s1 i V1) as Hs. destruct (from s1 i) as [src|] eqn:Es.
    2: { exfalso. unfold zslice, zlen in Hs. rewrite (read_length H1 s1 V1), L in Hs.
         destruct (Z.leb_spec 0 i); [|lia]. destruct (Z.leb_spec i (Z.of_nat (len s + 1))); [|lia].
         destruct (Z.leb_spec (Z.of_nat (len s + 1)) (Z.of_nat (len s + 1))); [|lia]. discriminate. }
    destruct Hs as (-> & Vs & _). cbn [obind].
    pose proof (from_ok H1 s1 (i + 1) V1) as Hd. destruct (from s1 (i + 1)) as [dst|] eqn:Ed.
    2: { exfalso. unfold zslice, zlen in Hd. rewrite (read_length H1 s1 V1), L in Hd.
         destruct (Z.leb_spec 0 (i + 1)); [|lia]. destruct (Z.leb_spec (i + 1) (Z.of_nat (len s + 1))); [|lia].
         destruct (Z.leb_spec (Z.of_nat (len s + 1)) (Z.of_nat (len s + 1))); [|lia]. discriminate. }
    cbn [obind]. destruct (copy_ok H1 s1 (i + 1) dst src V1 Ed Vs) as [-> Fc]. cbn [obind].
    pose proof (store_ok (copy H1 dst src) s1 i e (valid_frame _ _ _ _ Fc V1)) as Hst.
    destruct (store (copy H1 dst src) s1 i e) as [H2|].
    2: { exfalso. unfold zset, zlen in Hst. rewrite (read_length _ s1 (valid_frame _ _ _ _ Fc V1)), L in Hst.
         destruct (Z.leb_spec 0 i); [|lia]. destruct (Z.ltb_spec i (Z.of_nat (len s + 1))); [|lia]. discriminate. }
    destruct Hst as [-> Fs]. cbn [obind]. eexists _, _, _, _. split; [reflexivity|]. split; [reflexivity|].
    constructor; [reflexivity|exact (valid_frame _ _ _ _ (frame_trans _ _ _ _ Fc Fs) V1)| |assumption].
    eapply (frame_fresh H H1 H2 (within s1)).
    - eapply frame_mono; [|exact F]. intros a j Hj. left. now apply spare_within.
    - exact (frame_trans _ _ _ _ Fc Fs).
    - intros a j Hj. destruct P as [P|P]; [left; left; exact (same_within _ _ _ _ P Hj)|]. right. destruct Hj as [-> _]. assumption.
  Qed.
End Memory.
