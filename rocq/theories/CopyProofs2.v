(** The second half of Copy: references. *)
From Coq Require Import Permutation.
From Verif Require Import Base ListModel ListSpec ListProofs GraphModel GraphSpec GraphProofs GraphInv GraphSteps CopyModel CopySpec CopySteps CopyProofs.

Lemma copyOf_in (nw : list (nat * nat)) x c : NoDup (map fst nw) -> (copyOf nw x = Some c <-> In (x, c) nw).
Proof.
  induction nw as [|[k v] nw IH]; cbn; intro Hnd; [split; [discriminate|intros []]|].
  inversion Hnd as [|? ? H1 H2]; subst. destruct (Nat.eqb_spec k x) as [->|Hne].
  - split; [intros [= ->]; now left|]. intros [[= ->]|H]; [reflexivity|]. exfalso. apply H1. apply in_map_iff. exists (x, c). auto.
  - rewrite IH by assumption. split; [now right|]. intros [[= ? ?]|H]; [contradiction|assumption].
Qed.
Lemma copyOf_none (nw : list (nat * nat)) x : copyOf nw x = None <-> ~ In x (map fst nw).
Proof.
  induction nw as [|[k v] nw IH]; cbn; [tauto|]. destruct (Nat.eqb_spec k x) as [->|Hne].
  - split; [discriminate|]. intro H. exfalso. apply H. now left.
  - rewrite IH. intuition.
Qed.
Lemma entries_all (nw : list (nat * nat)) seen : NoDup (map fst nw) -> (forall x, In x (map fst nw) -> ~ In x seen) -> entries seen nw = nw.
Proof.
  revert seen. induction nw as [|[k v] nw IH]; intros seen Hnd Hs; [reflexivity|]. cbn in *. inversion Hnd as [|? ? H1 H2]; subst.
  assert (existsb (Nat.eqb k) seen = false) as ->.
  { destruct (existsb (Nat.eqb k) seen) eqn:E; [|reflexivity]. apply existsb_exists in E as (y & Hy & E). apply Nat.eqb_eq in E. subst y.
    exfalso. apply (Hs k); [now left|assumption]. }
  f_equal. apply IH; [assumption|]. intros x Hx [<-|Hin]; [contradiction|]. apply (Hs x); [now right|assumption].
Qed.

Section References.
  Context (M : metamodel) (W : wf_metamodel M) (X : copyInfo) (L : features_listed M X).
  Notation f_many := (f_many M). Notation f_cont := (f_cont M). Notation f_opp := (f_opp M).
  Notation features := (features M). Notation isContainer := (isContainer M). Notation link_typed := (link_typed M).
  Notation copied := (copied X). Notation GInv := (GInv M). Notation bi := (isBidirectional M).

  (** the graph before Copy, the graph after the first half, the pairs *)
  Context (g0 g1 : state) (G0 : GInv g0) (nw : list (obj * obj)).
  Context (Hfst : NoDup (map fst nw)) (Hsnd : NoDup (map snd nw)).
  Context (Hclass : forall x c, In (x, c) nw -> classOf M c = classOf M x).
  (** copies are not in the original graph *)
  Context (Hfresh : forall x c, In (x, c) nw -> ~ In c (map fst nw)).
  Context (Hfree : forall x c o f, In (x, c) nw -> ~ In c (slot g0 o f)).
  Context (Hsame : forall z f, ~ In z (map snd nw) -> slot g1 z f = slot g0 z f).
  Notation phi := (copyOf nw).

  Lemma phi_in x c : phi x = Some c <-> In (x, c) nw.
  Proof. apply copyOf_in. exact Hfst. Qed.
  Lemma pair_key x y c : In (x, c) nw -> In (y, c) nw -> x = y.
  Proof.
    clear - Hsnd. induction nw as [|[a b] l IH]; cbn; [intros []|]. inversion Hsnd as [|? ? H1 H2]; subst. intros [E|H] [E'|H'].
    - congruence.
    - injection E as -> ->. exfalso. apply H1. apply in_map_iff. exists (y, c). auto.
    - injection E' as -> ->. exfalso. apply H1. apply in_map_iff. exists (x, c). auto.
    - auto.
  Qed.
  Lemma pair_val x c d : In (x, c) nw -> In (x, d) nw -> c = d.
  Proof. intros H H'. apply phi_in in H, H'. congruence. Qed.
  Lemma val_in x c : In (x, c) nw -> In c (map snd nw).
  Proof. intro H. apply in_map_iff. exists (x, c). auto. Qed.
  Lemma key_in x c : In (x, c) nw -> In x (map fst nw).
  Proof. intro H. apply in_map_iff. exists (x, c). auto. Qed.
  Lemma key_old x c : In (x, c) nw -> ~ In x (map snd nw).
  Proof. intros H K. apply in_map_iff in K as ((y & d) & E & K). cbn in E. subst d. apply (Hfresh y x K). eapply key_in; eassumption. Qed.

  Lemma redirected_in f l w : In w (redirected M phi f l) <-> exists z, In z l /\ (In (z, w) nw \/ (~ In z (map fst nw) /\ bi f = false /\ w = z)).
  Proof.
    unfold redirected. rewrite in_flat_map. split; intros (z & Hz & H); exists z; (split; [assumption|]).
    - destruct (phi z) as [d|] eqn:E.
      + destruct H as [<-|[]]. left. now apply phi_in.
      + destruct (bi f) eqn:Eb; [destruct H|]. destruct H as [<-|[]]. right. split; [now apply copyOf_none|auto].
    - destruct H as [H|(H1 & H2 & ->)].
      + apply phi_in in H. rewrite H. now left.
      + apply copyOf_none in H1. rewrite H1, H2. now left.
  Qed.
  Lemma redirected_app f l l' : redirected M phi f (l ++ l') = redirected M phi f l ++ redirected M phi f l'.
  Proof. apply flat_map_app. Qed.

  Record Inv (g : state) (P Q : list (obj * feature)) : Prop := {
    i_reach : reachable M g;
    i_rest : same_but_slots g1 g;
    i_old : forall z f, ~ In z (map snd nw) -> slot g z f = slot g0 z f;
    i_cont : forall c f, f_cont f = true -> slot g c f = slot g1 c f;
    i_from : forall x c f y', In (x, c) nw -> f_cont f = false -> In y' (slot g c f) ->
      (exists y, In (y, y') nw /\ In y (slot g0 x f)) \/ (bi f = false /\ ~ In y' (map fst nw) /\ In y' (slot g0 x f));
    i_uni : forall x c f, In (x, c) nw -> f_cont f = false -> f_opp f = None -> ~ In (x, f) Q -> slot g c f = [];
    i_done : forall x c f, In (x, c) nw -> In (x, f) P -> slot g c f = redirected M phi f (slot g0 x f)
  }.
  Lemma inv_G g P Q : Inv g P Q -> GInv g.
  Proof. intro H. exact (proj1 (reachable_ok M W g (i_reach _ _ _ H))). Qed.

  Lemma bi_opp f q : f_opp f = Some q -> bi f = true.
  Proof. intro E. unfold isBidirectional. now rewrite E. Qed.
  Lemma bi_none f : f_opp f = None -> bi f = false.
  Proof. intro E. unfold isBidirectional. now rewrite E. Qed.

  (** only the slot in progress changed *)
  Lemma inv_slot g g' P Q x c f : Inv g P Q -> In (x, c) nw -> f_cont f = false -> ~ In (x, f) P -> In (x, f) Q -> reachable M g' -> same_but_slots g g' ->
    (forall a k, a <> c \/ k <> f -> slot g' a k = slot g a k) ->
    (forall y', In y' (slot g' c f) -> (exists y, In (y, y') nw /\ In y (slot g0 x f)) \/ (bi f = false /\ ~ In y' (map fst nw) /\ In y' (slot g0 x f))) ->
    Inv g' P Q.
  Proof.
    intros H Hx Hc HP HQ R (S1 & S2 & S3 & S4 & S5) Hs Hy. destruct H as [I1 I2 I3 I4 I5 I6 I7]. constructor; auto.
    - destruct I2 as (T1 & T2 & T3 & T4 & T5). unfold same_but_slots. repeat split; congruence.
    - intros z k Hz. rewrite Hs; [now apply I3|]. left. intros ->. apply Hz. eapply val_in; eassumption.
    - intros a k Hk. rewrite Hs; [now apply I4|]. right. intros ->. congruence.
    - intros z d k y' Hz Hk Hin. destruct (slot_dec d k c f) as [[-> ->]|D].
      + assert (z = x) by (eapply pair_key; eassumption). subst z. now apply Hy.
      + rewrite Hs in Hin by assumption. now apply (I5 z d).
    - intros z d k Hz Hk Ho Hq. rewrite Hs; [now apply (I6 z d)|].
      destruct (slot_dec d k c f) as [[-> ->]|D]; [|assumption]. assert (z = x) by (eapply pair_key; eassumption). subst z. contradiction.
    - intros z d k Hz Hk. rewrite Hs; [now apply I7|].
      destruct (slot_dec d k c f) as [[-> ->]|D]; [|assumption]. assert (z = x) by (eapply pair_key; eassumption). subst z. contradiction.
  Qed.

  (** a link was made with the copy [y'] of [y] *)
  Lemma inv_link g g' P Q x c f q y y' : Inv g P Q -> In (x, c) nw -> f_cont f = false -> isContainer f = false -> f_opp f = Some q -> ~ In (x, f) P ->
    In (y, y') nw -> In y (slot g0 x f) -> ~ In y' (slot g c f) -> reachable M g' -> same_but_slots g g' ->
    (forall a k, a <> c \/ k <> f -> a <> y' \/ k <> q -> slot g' a k = slot g a k) ->
    (forall z, In z (slot g' c f) -> z = y' \/ In z (slot g c f)) -> slot g' y' q = slot g y' q ++ [c] ->
    Inv g' P Q.
  Proof.
    intros H Hx Hc Hnc Eq HP Hy Hyx Hn R (S1 & S2 & S3 & S4 & S5) Hs Hin Hq.
    destruct (noncont_pair M W f q Eq Hc Hnc) as (Eq' & Hqc & Hqn & Hne).
    pose proof (inv_G _ _ _ H) as G. destruct H as [I1 I2 I3 I4 I5 I6 I7].
    assert (Hxy : In x (slot g0 y q)) by exact (g_sym M g0 G0 x f y q Eq Hc Hqc Hyx).
    assert (Hcn : ~ In c (slot g y' q)).
    { intro K. apply Hn. exact (g_sym M g G y' q c f Eq' Hqc Hc K). }
    assert (HPy : ~ In (y, q) P).
    { intro K. apply Hcn. rewrite (I7 y y' q Hy K). apply redirected_in. exists x. split; [assumption|]. now left. }
    constructor; auto.
    - destruct I2 as (T1 & T2 & T3 & T4 & T5). unfold same_but_slots. repeat split; congruence.
    - intros z k Hz. rewrite Hs; [now apply I3| |]; left; intros ->; apply Hz; eapply val_in; eassumption.
    - intros a k Hk. rewrite Hs; [now apply I4| |]; right; intros ->; congruence.
    - intros z d k w Hz Hk Hw. destruct (slot_dec d k c f) as [[-> ->]|D1].
      + assert (z = x) by (eapply pair_key; eassumption). subst z. apply Hin in Hw as [->|Hw]; [left; exists y; auto|now apply (I5 x c)].
      + destruct (slot_dec d k y' q) as [[-> ->]|D2].
        * assert (z = y) by (eapply pair_key; eassumption). subst z. rewrite Hq in Hw. apply in_app_iff in Hw as [Hw|[<-|[]]]; [now apply (I5 y y')|].
          left. exists x. auto.
        * rewrite Hs in Hw by assumption. now apply (I5 z d).
    - intros z d k Hz Hk Ho Hqq. rewrite Hs; [now apply (I6 z d)| |]; right; intros ->; congruence.
    - intros z d k Hz Hk. rewrite Hs; [now apply I7| |].
      + destruct (slot_dec d k c f) as [[-> ->]|D]; [|assumption]. assert (z = x) by (eapply pair_key; eassumption). subst z. contradiction.
      + destruct (slot_dec d k y' q) as [[-> ->]|D]; [|assumption]. assert (z = y) by (eapply pair_key; eassumption). subst z. contradiction.
  Qed.

  (** the opposite end is free, when it is single-valued *)
  Lemma end_free g P Q x c f q y y' : Inv g P Q -> In (x, c) nw -> f_cont f = false -> isContainer f = false -> f_opp f = Some q ->
    In (y, y') nw -> In y (slot g0 x f) -> ~ In y' (slot g c f) -> f_many q = false -> slot g y' q = [].
  Proof.
    intros H Hx Hc Hnc Eq Hy Hyx Hn Hm. destruct (noncont_pair M W f q Eq Hc Hnc) as (Eq' & Hqc & Hqn & Hne).
    pose proof (inv_G _ _ _ H) as G.
    assert (Hxy : In x (slot g0 y q)) by exact (g_sym M g0 G0 x f y q Eq Hc Hqc Hyx).
    destruct (slot g y' q) as [|z l] eqn:E; [reflexivity|]. exfalso.
    assert (Hz : In z (slot g y' q)) by (rewrite E; now left).
    destruct (i_from _ _ _ H y y' q z Hy Hqc Hz) as [(w & Hw & Hwy)|(K & _)]; [|rewrite (bi_opp _ _ Eq') in K; discriminate].
    assert (w = x).
    { pose proof (g_single M g0 G0 y q Hm) as Hs. destruct (slot g0 y q) as [|a [|b l']]; cbn in *; [tauto| |lia]. destruct Hwy, Hxy; try tauto. congruence. }
    subst w. assert (z = c) by (eapply pair_val; eassumption). subst z.
    apply Hn. exact (g_sym M g G y' q c f Eq' Hqc Hc Hz).
  Qed.
  Lemma copy_typed x c f y y' : In (x, c) nw -> In (y, y') nw -> In y (slot g0 x f) -> link_typed c f y'.
  Proof.
    intros Hx Hy Hyx. destruct (g_typed M g0 G0 _ _ _ Hyx) as [[T1 T2] _]. split.
    - unfold GraphModel.features in *. now rewrite (Hclass x c Hx).
    - intros q Hq. specialize (T2 q Hq). unfold GraphModel.features in *. now rewrite (Hclass y y' Hy).
  Qed.

  Lemma in_split_first (r : list nat) y : In y r -> exists r1 r2, r = r1 ++ y :: r2.
  Proof. apply in_split. Qed.
  Lemma indexOf_absent (l : list nat) y : ~ In y l -> indexOf Nat.eqb l y = -1.
  Proof.
    intro H. rewrite (indexOf_spec Nat.eqb). apply (first_pos_none Nat.eqb neqb_ok) in H. now rewrite H.
  Qed.
  Lemma indexOf_mid (l1 l2 : list nat) y : ~ In y l1 -> indexOf Nat.eqb (l1 ++ y :: l2) y = zlen l1.
  Proof.
    intro H. rewrite (indexOf_spec Nat.eqb).
    assert (forall l, ~ In y l -> first_pos Nat.eqb (l ++ y :: l2) y = Some (length l)) as ->; [|reflexivity|assumption].
    induction l as [|a l IH]; intro Ha; cbn [app first_pos length].
    - now rewrite Nat.eqb_refl.
    - destruct (Nat.eqb_spec a y) as [->|]; [exfalso; apply Ha; now left|]. rewrite IH by (intro; apply Ha; now right). reflexivity.
  Qed.

  Lemma elements_ok x c f P Q : In (x, c) nw -> In f (features x) -> f_many f = true -> f_cont f = false -> ~ In (x, f) P -> In (x, f) Q ->
    forall src pre g r, slot g0 x f = pre ++ src -> slot g c f = redirected M phi f pre ++ r -> (f_opp f = None -> r = []) -> Inv g P Q ->
    exists g' r', copyElements M phi g f c (zlen (redirected M phi f pre)) src = Some g' /\ Inv g' P Q /\
      slot g' c f = redirected M phi f (slot g0 x f) ++ r' /\ (f_opp f = None -> r' = []).
  Proof.
    intros Hx Hfx Hm Hc HP HQ.
    pose proof (many_not_container M W f Hm) as Hnc.
    assert (Hfc : In f (features c)) by (unfold GraphModel.features in *; now rewrite (Hclass x c Hx)).
    induction src as [|y src IH]; intros pre g r Es Et Hr H.
    { exists g, r. cbn [copyElements]. rewrite app_nil_r in Es. rewrite Es. auto. }
    assert (Hyx : In y (slot g0 x f)) by (rewrite Es; apply in_or_app; right; now left).
    assert (Hpre : ~ In y pre).
    { pose proof (g_nodup M g0 G0 x f) as Hnd. rewrite Es in Hnd. apply NoDup_remove_2 in Hnd. intro K. apply Hnd. apply in_or_app. now left. }
    assert (Hdone : forall y', In (y, y') nw -> ~ In y' (redirected M phi f pre)).
    { intros y' Hy K. apply redirected_in in K as (z & Hz & [K|(K1 & K2 & ->)]).
      - assert (z = y) by (eapply pair_key; eassumption). subst z. contradiction.
      - apply (Hfree y z x f Hy). rewrite Es. apply in_or_app. now left. }
    assert (Hsub : forall z, In z (slot g c f) -> (exists w, In (w, z) nw /\ In w (slot g0 x f)) \/ (bi f = false /\ ~ In z (map fst nw) /\ In z (slot g0 x f))).
    { intros z Hz. now apply (i_from _ _ _ H x c). }
    cbn [copyElements]. destruct (phi y) as [y'|] eqn:Ey.
    - (* the copy of y *)
      apply phi_in in Ey. assert (Hstep : redirected M phi f (pre ++ [y]) = redirected M phi f pre ++ [y']).
      { rewrite redirected_app. unfold redirected at 2. cbn [flat_map]. apply phi_in in Ey. now rewrite Ey. }
      assert (Hlen : zlen (redirected M phi f pre) + 1 = zlen (redirected M phi f (pre ++ [y]))) by (rewrite Hstep; zl).
      assert (Hnext : forall g' r', Inv g' P Q -> slot g' c f = redirected M phi f pre ++ y' :: r' -> (f_opp f = None -> r' = []) ->
        exists g'' r'', copyElements M phi g' f c (zlen (redirected M phi f pre) + 1) src = Some g'' /\ Inv g'' P Q /\
          slot g'' c f = redirected M phi f (slot g0 x f) ++ r'' /\ (f_opp f = None -> r'' = [])).
      { intros g' r' H' Et' Hr'. rewrite Hlen. apply (IH (pre ++ [y]) g' r'); auto.
        - now rewrite <- app_assoc.
        - rewrite Hstep, <- app_assoc. exact Et'. }
      rewrite (eGet_own M W) by assumption. rewrite Hnc. cbn [obind].
      destruct (GraphModel.f_opp M f) as [q|] eqn:Eq.
      + (* with an opposite *)
        rewrite (bi_opp f q Eq). destruct (in_dec Nat.eq_dec y' (slot g c f)) as [Hin|Hin].
        * assert (Hr' : In y' r). { rewrite Et in Hin. apply in_app_iff in Hin as [Hin|Hin]; [|assumption]. exfalso. now apply (Hdone y' Ey). }
          apply in_split in Hr' as (r1 & r2 & Er).
          assert (Hpos : indexOf Nat.eqb (slot g c f) y' = zlen (redirected M phi f pre) + zlen r1).
          { pose proof (g_nodup M g (inv_G _ _ _ H) c f) as Hnd. rewrite Et, Er in Hnd |- *. rewrite app_assoc in Hnd |- *.
            rewrite indexOf_mid; [zl|]. apply NoDup_remove_2 in Hnd. intro K. apply Hnd. apply in_or_app. now left. }
          rewrite Hpos. destruct (Z.eqb_spec (zlen (redirected M phi f pre) + zlen r1) (-1)); [zl|].
          destruct (Z.eqb_spec (zlen (redirected M phi f pre)) (zlen (redirected M phi f pre) + zlen r1)) as [E|E]; cbn [negb].
          -- assert (r1 = []) by (destruct r1; [reflexivity|zl]). subst r1. cbn [obind].
             apply (Hnext g r2); auto; [now rewrite Et, Er|discriminate].
          -- destruct (move_bi M W g c f y' (redirected M phi f pre) r1 r2) as (g' & -> & R' & S' & T' & F'); auto.
             { exact (i_reach _ _ _ H). } { now rewrite Et, Er. }
             cbn [obind]. apply (Hnext g' (r1 ++ r2)); auto; [|discriminate].
             apply (inv_slot g g' P Q x c f); auto. intros z Hz. apply Hsub. rewrite Et, Er. rewrite T' in Hz.
             rewrite !in_app_iff in *. cbn in *. rewrite in_app_iff in Hz. tauto.
        * rewrite indexOf_absent by assumption. rewrite Z.eqb_refl.
          destruct (insert_bi M W g c f q y' (redirected M phi f pre) r) as (g' & -> & R' & S' & T1' & T2' & F'); auto.
          { exact (i_reach _ _ _ H). } { eapply copy_typed; eassumption. } { now rewrite <- Et. }
          { intro Hq. eapply (end_free g P Q x c f q y y'); eassumption. }
          cbn [obind]. apply (Hnext g' r); auto.
          apply (inv_link g g' P Q x c f q y y'); auto.
          intros z Hz. rewrite T1' in Hz. rewrite Et. rewrite in_app_iff in *. cbn in Hz. intuition.
      + (* without *)
        rewrite (bi_none f Eq). rewrite (Hr eq_refl), app_nil_r in Et. clear Hr r.
        destruct (insert_uni M W g c f y' (redirected M phi f pre) []) as (g' & -> & R' & S' & T' & F'); auto.
        { exact (i_reach _ _ _ H). } { now rewrite app_nil_r. } { rewrite app_nil_r. now apply Hdone. }
        cbn [obind]. apply (Hnext g' []); auto.
        apply (inv_slot g g' P Q x c f); auto. intros z Hz. rewrite T' in Hz. apply in_app_iff in Hz as [Hz|[<-|[]]].
        * apply Hsub. now rewrite Et.
        * left. exists y. auto.
    - (* another object *)
      apply copyOf_none in Ey. destruct (bi f) eqn:Eb.
      + assert (Hstep : redirected M phi f (pre ++ [y]) = redirected M phi f pre).
        { rewrite redirected_app. unfold redirected at 2. cbn [flat_map]. apply copyOf_none in Ey. now rewrite Ey, Eb, app_nil_r. }
        rewrite <- Hstep. apply (IH (pre ++ [y]) g r); auto; [now rewrite <- app_assoc|now rewrite Hstep].
      + assert (Hstep : redirected M phi f (pre ++ [y]) = redirected M phi f pre ++ [y]).
        { rewrite redirected_app. unfold redirected at 2. cbn [flat_map]. apply copyOf_none in Ey. now rewrite Ey, Eb. }
        assert (Eq : f_opp f = None). { unfold isBidirectional in Eb. destruct (GraphModel.f_opp M f); [discriminate|reflexivity]. }
        rewrite (Hr Eq), app_nil_r in Et.
        destruct (insert_uni M W g c f y (redirected M phi f pre) []) as (g' & -> & R' & S' & T' & F'); auto.
        { exact (i_reach _ _ _ H). } { now rewrite app_nil_r. }
        { rewrite app_nil_r. intro K. apply redirected_in in K as (z & Hz & [K|(K1 & K2 & ->)]); [|contradiction].
          exact (Hfree z y x f K Hyx). }
        cbn [obind]. assert (zlen (redirected M phi f pre) + 1 = zlen (redirected M phi f (pre ++ [y]))) as -> by (rewrite Hstep; zl).
        apply (IH (pre ++ [y]) g' []); auto.
        * now rewrite <- app_assoc.
        * now rewrite Hstep, app_nil_r.
        * apply (inv_slot g g' P Q x c f); auto. intros z Hz. rewrite T' in Hz. apply in_app_iff in Hz as [Hz|[<-|[]]].
          -- rewrite Eb. apply Hsub. now rewrite Et.
          -- right. auto.
  Qed.

  Lemma inv_done g P x c f : Inv g P ((x, f) :: P) -> In (x, c) nw -> slot g c f = redirected M phi f (slot g0 x f) -> Inv g ((x, f) :: P) ((x, f) :: P).
  Proof.
    intros [I1 I2 I3 I4 I5 I6 I7] Hx E. constructor; auto.
    intros z d k Hz [[= <- <-]|Hk]; [|now apply I7]. assert (d = c) by (eapply pair_val; eassumption). now subst.
  Qed.
  Lemma inv_start g P x f : Inv g P P -> Inv g P ((x, f) :: P).
  Proof. intros [I1 I2 I3 I4 I5 I6 I7]. constructor; auto. intros z c k Hz Hk Ho Hq. apply (I6 z c); auto. intro. apply Hq. now right. Qed.

  Lemma reference_ok x c f P g : In (x, c) nw -> In f (features x) -> f_cont f = false -> isContainer f = false -> ~ In (x, f) P -> Inv g P P ->
    exists g', copyReference M phi g f x c = Some g' /\ Inv g' ((x, f) :: P) ((x, f) :: P).
  Proof.
    intros Hx Hfx Hc Hnc HP H0. pose proof (inv_start g P x f H0) as H.
    assert (HQ : In (x, f) ((x, f) :: P)) by now left.
    assert (Hfc : In f (features c)) by (unfold GraphModel.features in *; now rewrite (Hclass x c Hx)).
    unfold copyReference. rewrite (eGet_own M W) by assumption. rewrite Hnc. cbn [obind].
    rewrite (i_old _ _ _ H) by (eapply key_old; eassumption).
    assert (Hsub : forall z, In z (slot g c f) -> (exists w, In (w, z) nw /\ In w (slot g0 x f)) \/ (bi f = false /\ ~ In z (map fst nw) /\ In z (slot g0 x f))).
    { intros z Hz. now apply (i_from _ _ _ H x c). }
    destruct (slot g0 x f) as [|y l] eqn:Es.
    { exists g. split; [reflexivity|]. apply (inv_done g P x c f); auto. rewrite Es. cbn.
      destruct (slot g c f) as [|z k]; [reflexivity|]. destruct (Hsub z) as [(w & _ & [])|(_ & _ & [])]. now left. }
    destruct (f_many f) eqn:Em.
    - rewrite <- Es. destruct (elements_ok x c f P ((x, f) :: P) Hx Hfx Em Hc HP HQ (slot g0 x f) [] g (slot g c f)) as (g' & r' & E & H' & Et & Hr); auto.
      { intro Eq. apply (i_uni _ _ _ H0 x c); auto. }
      exists g'. split; [exact E|]. apply (inv_done g' P x c f); auto.
      destruct (GraphModel.f_opp M f) as [q|] eqn:Eq; [|now rewrite Et, (Hr eq_refl), app_nil_r].
      assert (r' = []); [|subst; now rewrite Et, app_nil_r].
      destruct r' as [|z r']; [reflexivity|]. exfalso.
      assert (Hz : In z (slot g' c f)) by (rewrite Et; apply in_or_app; right; now left).
      destruct (i_from _ _ _ H' x c f z Hx Hc Hz) as [(w & Hw & Hwx)|(K & _)]; [|rewrite (bi_opp _ _ Eq) in K; discriminate].
      pose proof (g_nodup M g' (inv_G _ _ _ H') c f) as Hnd. rewrite Et in Hnd. apply NoDup_remove_2 in Hnd. apply Hnd. apply in_or_app. left.
      apply redirected_in. exists w. split; [assumption|now left].
    - assert (El : slot g0 x f = [y]). { pose proof (g_single M g0 G0 x f Em) as Hs. rewrite Es in Hs |- *. destruct l; [reflexivity|cbn in Hs; lia]. }
      assert (Hyx : In y (slot g0 x f)) by (rewrite El; now left).
      pose proof (g_single M g (inv_G _ _ _ H) c f Em) as Hsc.
      destruct (phi y) as [y'|] eqn:Ey.
      + apply phi_in in Ey. assert (Hred : redirected M phi f (slot g0 x f) = [y']).
        { rewrite El. unfold redirected. cbn. apply phi_in in Ey. now rewrite Ey. }
        destruct (GraphModel.f_opp M f) as [q|] eqn:Eq.
        * destruct (in_dec Nat.eq_dec y' (slot g c f)) as [Hin|Hin].
          -- assert (E1 : slot g c f = [y']). { destruct (slot g c f) as [|a [|b k]]; cbn in *; [tauto| |lia]. destruct Hin as [->|[]]. reflexivity. }
             rewrite (set_bi_same M W) by (auto; now apply bi_opp with q). exists g. split; [reflexivity|]. apply (inv_done g P x c f); auto. congruence.
          -- assert (E1 : slot g c f = []).
             { destruct (slot g c f) as [|a k] eqn:Ea; [reflexivity|]. exfalso. destruct (Hsub a) as [(w & Hw & Hwx)|(K & _)]; [now left| |rewrite (bi_opp _ _ Eq) in K; discriminate].
               assert (w = y). { rewrite Es in El. injection El as ->. destruct Hwx as [->|[]]. reflexivity. }
               subst w. assert (a = y') by (eapply pair_val; eassumption). subst a. apply Hin. now left. }
             destruct (set_bi M W g c f q y') as (g' & -> & R' & S' & T1' & T2' & F'); auto.
             { exact (i_reach _ _ _ H). } { eapply copy_typed; eassumption. }
             { intro Hq. eapply (end_free g P _ x c f q y y'); eassumption. }
             exists g'. split; [reflexivity|]. apply (inv_done g' P x c f); auto; [|congruence].
             apply (inv_link g g' P _ x c f q y y'); auto. intros z Hz. rewrite T1' in Hz. destruct Hz as [<-|[]]. now left.
        * destruct (set_uni M W g c f y') as (g' & -> & R' & S' & T' & F'); auto. { exact (i_reach _ _ _ H). }
          exists g'. split; [reflexivity|]. apply (inv_done g' P x c f); auto; [|congruence].
          apply (inv_slot g g' P _ x c f); auto. intros z Hz. rewrite T' in Hz. destruct Hz as [<-|[]]. left. exists y. auto.
      + apply copyOf_none in Ey. destruct (bi f) eqn:Eb.
        * exists g. split; [reflexivity|]. apply (inv_done g P x c f); auto. rewrite El. unfold redirected. cbn. apply copyOf_none in Ey. rewrite Ey, Eb. cbn.
          destruct (slot g c f) as [|a k] eqn:Ea; [reflexivity|]. exfalso. destruct (Hsub a) as [(w & Hw & Hwx)|(K & _)]; [now left| |discriminate].
          rewrite Es in El. injection El as ->. destruct Hwx as [->|[]]. apply copyOf_none in Ey. apply Ey. eapply key_in; eassumption.
        * assert (Eq : f_opp f = None). { unfold isBidirectional in Eb. destruct (GraphModel.f_opp M f); [discriminate|reflexivity]. }
          destruct (set_uni M W g c f y) as (g' & -> & R' & S' & T' & F'); auto. { exact (i_reach _ _ _ H). }
          exists g'. split; [reflexivity|]. apply (inv_done g' P x c f); auto.
          -- apply (inv_slot g g' P _ x c f); auto. intros z Hz. rewrite T' in Hz. destruct Hz as [<-|[]]. right. auto.
          -- rewrite El. unfold redirected. cbn. apply copyOf_none in Ey. now rewrite Ey, Eb.
  Qed.

  Definition treated (f : feature) : bool := copied f && negb (f_cont f) && negb (isContainer f).

  Lemma object_ok x c fs : In (x, c) nw -> NoDup fs -> (forall f, In f fs -> In f (features x)) -> forall P g, (forall f, In f fs -> ~ In (x, f) P) -> Inv g P P ->
    exists g' P', copyObjectReferences M X phi g fs x c = Some g' /\ Inv g' P' P' /\ incl P P' /\
      (forall f, In f fs -> treated f = true -> In (x, f) P') /\ (forall z f, In (z, f) P' -> In (z, f) P \/ z = x).
  Proof.
    intros Hx. induction fs as [|f fs IH]; intros Hnd Hfs P g HP H; cbn [copyObjectReferences].
    - exists g, P. split; [reflexivity|]. split; [assumption|]. split; [apply incl_refl|]. split; [intros f []|auto].
    - inversion Hnd as [|? ? Hf Hr]; subst. fold (treated f). destruct (treated f) eqn:Et.
      + pose proof Et as Et'. unfold treated in Et'. apply andb_true_iff in Et' as [Et' E3]. apply andb_true_iff in Et' as [E1 E2].
        apply negb_true_iff in E2, E3.
        destruct (reference_ok x c f P g) as (g1' & -> & H1); auto. { apply Hfs. now left. } { apply HP. now left. }
        cbn [obind]. destruct (IH Hr) with (P := (x, f) :: P) (g := g1') as (g' & P' & E & H' & Hi & Hd & Ho); auto.
        { intros; apply Hfs; now right. }
        { intros k Hk [[= <-]|K]; [contradiction|]. apply (HP k); [now right|assumption]. }
        exists g', P'. split; [exact E|]. split; [assumption|]. split; [|split].
        * intros p Hp. apply Hi. now right.
        * intros k [<-|Hk] Hk'; [apply Hi; now left|now apply Hd].
        * intros z k Hz. destruct (Ho z k Hz) as [[[= <- <-]|K]|K]; auto.
      + cbn [obind]. destruct (IH Hr) with (P := P) (g := g) as (g' & P' & E & H' & Hi & Hd & Ho); auto.
        { intros; apply Hfs; now right. } { intros k Hk. apply HP. now right. }
        exists g', P'. split; [exact E|]. split; [assumption|]. split; [assumption|]. split; [|assumption].
        intros k [<-|Hk] Hk'; [congruence|now apply Hd].
  Qed.

  Lemma references_ok order : incl order nw -> NoDup (map fst order) -> forall P g, (forall x f, In x (map fst order) -> ~ In (x, f) P) -> Inv g P P ->
    exists g' P', copyReferences M X phi g order = Some g' /\ Inv g' P' P' /\ incl P P' /\
      (forall x c f, In (x, c) order -> In f (ownReferences X (classOf M x)) -> treated f = true -> In (x, f) P').
  Proof.
    induction order as [|[x c] order IH]; intros Hi Hnd P g HP H; cbn [copyReferences].
    - exists g, P. split; [reflexivity|]. split; [assumption|]. split; [apply incl_refl|intros x c f []].
    - cbn in Hnd. inversion Hnd as [|? ? Hx Hr]; subst. destruct (L x) as (_ & N & Hin).
      destruct (object_ok x c (ownReferences X (classOf M x))) with (P := P) (g := g) as (g2 & P2 & -> & H2 & Hi2 & Hd2 & Ho2); auto.
      { apply Hi. now left. } { intros f _. apply HP. now left. }
      cbn [obind]. destruct (IH) with (P := P2) (g := g2) as (g' & P' & E & H' & Hi' & Hd'); auto.
      { intros p Hp. apply Hi. now right. }
      { intros z f Hz K. destruct (Ho2 z f K) as [K'| ->]; [|contradiction]. apply (HP z f); [now right|assumption]. }
      exists g', P'. split; [exact E|]. split; [assumption|]. split; [eapply incl_tran; eassumption|].
      intros z d f [[= <- <-]|Hz] Hf Ht; [apply Hi'; now apply Hd2|now apply (Hd' z d)].
  Qed.
End References.
