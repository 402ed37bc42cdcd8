(** Copy and CopyAll as a whole. *)
From Coq Require Import Permutation.
From Verif Require Import Base EqualModel ListModel ListSpec ListProofs GraphModel GraphSpec GraphProofs GraphInv GraphSteps CopyModel CopySpec CopySteps CopyProofs CopyProofs2.

Section Whole.
  Context (M : metamodel) (W : wf_metamodel M) (X : copyInfo) (alloc : nat -> nat -> obj) (A : factory M alloc) (L : features_listed M X).
  Notation f_many := (f_many M). Notation f_cont := (f_cont M). Notation f_opp := (f_opp M).
  Notation features := (features M). Notation isContainer := (isContainer M). Notation link_typed := (link_typed M).
  Notation copied := (copied X). Notation child := (child M X). Notation inside := (inside M X).
  Notation is_new := (is_new alloc). Notation good := (good M alloc). Notation blank := (blank).
  Notation GInv := (GInv M).
  Context (s0 : cstate) (H0 : good s0) (rank : obj -> nat) (HR : ranked M X (graph s0) rank).
  Notation g0 := (graph s0).
  Notation all_done := (all_done M X alloc s0). Notation based := (based M alloc s0).

  Lemma good_start : good (start s0).
  Proof. destruct H0 as [a b c d]. constructor; auto. intros z Hz. destruct (b z Hz) as [e f g h i]. constructor; auto. Qed.
  Lemma based_start : based (start s0).
  Proof. constructor; cbn; auto. exact good_start. Qed.

  Lemma Forall2_in_r {B C} (P : B -> C -> Prop) l1 l2 y : Forall2 P l1 l2 -> In y l2 -> exists x, In x l1 /\ P x y.
  Proof. induction 1; cbn; [intros []|]. intros [<-|H']; [eauto|]. destruct (IHForall2 H') as (z & Hz & Hp). eauto. Qed.
  Lemma Forall2_in_l {B C} (P : B -> C -> Prop) l1 l2 x : Forall2 P l1 l2 -> In x l1 -> exists y, In y l2 /\ P x y.
  Proof. induction 1; cbn; [intros []|]. intros [<-|H']; [eauto|]. destruct (IHForall2 H') as (z & Hz & Hp). eauto. Qed.

  Lemma finish s1 roots cs nw visit : separate M X g0 roots -> (forall r, In r roots -> ~ is_new s0 r) -> all_done (start s0) s1 roots cs nw ->
    (forall l, Permutation (visit l) l) ->
    exists g, copyReferences M X (copyOf (copies s1)) (graph s1) (visit (entries [] (copies s1))) = Some g /\
      is_copy M X alloc s0 (withGraph s1 g) roots (copyOf (copies s1)) /\ Forall2 (fun r c => copyOf (copies s1) r = Some c) roots cs.
  Proof.
    intros [Hnr Hsep] Hold [D1 D2 D3 D4 D5 D6] Hv.
    assert (Ec : copies s1 = nw) by (rewrite (w_copies _ _ _ _ _ D1); apply app_nil_r). rewrite Ec.
    rewrite (entries_all nw []) by (auto; intros x _ []).
    pose proof (w_valsnd _ _ _ _ _ D1) as Hsnd. pose proof (G0 M W alloc s0 H0) as G0.
    pose proof (w_good _ _ _ _ _ D1) as Hg1.
    assert (Hin_old : forall r x, In r roots -> inside g0 r x -> ~ is_new s0 x).
    { intros r x Hr Hx. destruct Hx as [|p y Hp Hy]; [now apply Hold|]. eapply child_old; eassumption. }
    assert (Hkey_old : forall x, In x (map fst nw) -> ~ is_new s0 x).
    { intros x Hx. apply D5 in Hx as (r & Hr & Hx). eauto. }
    assert (Hval_new : forall x c, In (x, c) nw -> is_new s0 c).
    { intros x c Hx. destruct (w_vals _ _ _ _ _ D1 x c Hx) as (k & Hk & ->). exists k, (classOf M x). cbn in Hk. split; [lia|reflexivity]. }
    assert (Hclass : forall x c, In (x, c) nw -> classOf M c = classOf M x).
    { intros x c Hx. destruct (w_vals _ _ _ _ _ D1 x c Hx) as (k & Hk & ->). apply (a_class M alloc A). }
    assert (Hfresh : forall x c, In (x, c) nw -> ~ In c (map fst nw)).
    { intros x c Hx K. apply (Hkey_old c K). eauto. }
    assert (Hfree : forall x c o f, In (x, c) nw -> ~ In c (slot g0 o f)).
    { intros x c o f Hx. apply (b_free s0 c). apply (o_blank M alloc s0 H0). eauto. }
    assert (Hsame : forall z f, ~ In z (map snd nw) -> slot (graph s1) z f = slot g0 z f).
    { intros z f Hz. destruct (w_frame _ _ _ _ _ D1 z Hz) as (_ & _ & E & _). apply E. }
    assert (Hnone : forall x c f, In (x, c) nw -> f_cont f = false -> slot (graph s1) c f = []).
    { intros x c f Hx Hf. apply (l_slot_none _ _ _ _ _ _ _ _ (D2 x c Hx)). intros [_ K]. unfold contained_via in K. rewrite Hf in K.
      rewrite andb_false_r in K. discriminate. }
    assert (I1 : Inv M g0 (graph s1) nw (graph s1) [] []).
    { constructor; auto.
      - exact (o_reach M alloc s1 Hg1).
      - unfold same_but_slots. repeat split.
      - intros x c f y' Hx Hf Hy. rewrite (Hnone x c f Hx Hf) in Hy. destruct Hy.
      - intros x c f Hx Hf _ _. eapply Hnone; eassumption.
      - intros x c f _ []. }
    assert (Hperm : Permutation (visit nw) nw) by apply Hv.
    destruct (references_ok M W X L g0 (graph s1) G0 nw D6 Hsnd Hclass Hfresh Hfree Hsame (visit nw)) with (P := @nil (obj * feature)) (g := graph s1)
      as (g & P' & E & I2 & _ & Hd); auto.
    { intros p Hp. eapply Permutation_in; eassumption. }
    { eapply Permutation_NoDup; [|exact D6]. apply Permutation_map. now symmetry. }
    exists g. split; [exact E|].
    assert (Hphi : forall x c, copyOf nw x = Some c <-> In (x, c) nw) by (intros; now apply copyOf_in).
    pose proof (i_rest _ _ _ _ _ _ _ I2) as (T1 & T2 & T3 & T4 & T5).
    assert (Hpar : forall x p, In x (map fst nw) -> child g0 p x -> (In x roots /\ ~ In p (map fst nw)) \/ In p (map fst nw)).
    { intros x p Hx Hp. apply D5 in Hx as (r & Hr & Hx). inversion Hx as [|p' ? Hp' Hc]; subst.
      - left. split; [assumption|]. intro K. apply D5 in K as (r' & Hr' & K).
        assert (r' = x). { apply Hsep; auto. eapply inside_child; eassumption. } subst r'.
        apply (inside_rank M X g0 rank HR) in K. apply HR in Hp. lia.
      - right. assert (p' = p) by (eapply (child_parent M W X g0); [exact (o_reach M alloc s0 H0)| |]; eassumption). subst. apply D5. eauto. }
    assert (Hcont : forall x c f, In (x, c) nw -> In f (features x) -> contained_via M X f = true -> Forall2 (fun y y' => In (y, y') nw) (slot g0 x f) (slot g c f)).
    { intros x c f Hx Hf Hc. assert (Hfc : f_cont f = true). { unfold contained_via in Hc. now apply andb_true_iff in Hc as [_ Hc]. }
      rewrite (i_cont _ _ _ _ _ _ _ I2) by assumption. now apply (l_slot _ _ _ _ _ _ _ _ (D2 x c Hx)). }
    assert (Hblank : forall z, is_new s1 z -> ~ In z (map snd nw) /\ is_new s0 z).
    { intros z Hz. split.
      - intro K. exact (grown_not_new M alloc A _ _ _ _ D1 K Hz).
      - exact (new_older M alloc _ _ _ _ D1 Hz). }
    split.
    2:{ clear - Hphi D3. induction D3; constructor; auto. now apply Hphi. }
    constructor; cbn [withGraph graph attrs lists].
    - intro x. rewrite <- D5. split.
      + intros (c & Hc). apply Hphi in Hc. eapply key_in; eassumption.
      + intro Hx. destruct (copyOf nw x) as [c|] eqn:Ex; [eauto|]. apply copyOf_none in Ex. contradiction.
    - intros x c Hc. apply Hphi in Hc. split; [eapply Hval_new; eassumption|now apply Hclass].
    - intros x y c Hx Hy. apply Hphi in Hx, Hy. eapply pair_key; [exact Hsnd| |]; eassumption.
    - intros z Hz. assert (Hz' : ~ In z (map snd nw)).
      { intro K. apply in_map_iff in K as ((x & c) & Ez & K). cbn in Ez. subst c. apply (Hz x). now apply Hphi. }
      destruct (w_frame _ _ _ _ _ D1 z Hz') as (F1 & F2 & F3 & F4). rewrite T1, T2. split; [exact F1|]. split; [exact F2|]. split; [|split].
      + intro f. now apply (i_old _ _ _ _ _ _ _ I2).
      + exact F4.
      + intro f. pose proof (attr_frame M alloc (start s0) s1 z F4 good_start (w_lists _ _ _ _ _ D1) f) as K. exact K.
    - destruct (w_res _ _ _ _ _ D1) as (R1 & R2 & R3). rewrite T3, T4, T5. auto.
    - intros x c f Hc Hf. apply Hphi in Hc. exact (l_attr _ _ _ _ _ _ _ _ (D2 x c Hc) f Hf).
    - intros x c f l Hc Hl. apply Hphi in Hc. exact (w_lists_new _ _ _ _ _ D1 c f l (val_in nw x c Hc) Hl).
    - intros x c f Hc Hf Ha Hcp Hfc. apply Hphi in Hc.
      assert (K : contained_via M X f = true) by (unfold contained_via; now rewrite Hcp, Ha, Hfc).
      pose proof (Hcont x c f Hc Hf K) as F. clear - F Hphi. induction F as [|y y' l l' Hy F IH]; [reflexivity|].
      cbn. apply Hphi in Hy. now rewrite Hy, IH.
    - intros x c f Hc Hf Hcp Hfc Hnc. apply Hphi in Hc. apply (i_done _ _ _ _ _ _ _ I2); [assumption|].
      apply (Hd x c); auto.
      + eapply Permutation_in; [symmetry; exact Hperm|assumption].
      + unfold treated. now rewrite Hcp, Hfc, Hnc.
    - intros x c f y' Hc Hy. apply Hphi in Hc. destruct (GraphModel.f_cont M f) eqn:Hfc.
      + left. rewrite (i_cont _ _ _ _ _ _ _ I2) in Hy by assumption. pose proof (D2 x c Hc) as [F1 F2 _ _].
        destruct (in_dec Nat.eq_dec f (features x)) as [Hf|Hf].
        2:{ rewrite F2 in Hy by tauto. destruct Hy. }
        destruct (contained_via M X f) eqn:K; [|rewrite F2 in Hy by (intros [_ ?]; congruence); destruct Hy].
        destruct (Forall2_in_r _ _ _ y' (F1 f Hf K) Hy) as (y & Hyx & Hyy). exists y. split; [now apply Hphi|assumption].
      + destruct (i_from _ _ _ _ _ _ _ I2 x c f y' Hc Hfc Hy) as [(y & Hyy & Hyx)|(K1 & K2 & K3)].
        * left. exists y. split; [now apply Hphi|assumption].
        * right. repeat split; auto. now apply copyOf_none.
    - intros x c p Hc Hp. apply Hphi in Hc. rewrite T1.
      destruct (Hpar x p) as [[Hr Hnp]|Hpn]; [eapply key_in; eassumption|assumption| |].
      + apply copyOf_none in Hnp. rewrite Hnp. apply D4.
        destruct (Forall2_in_l _ _ _ x D3 Hr) as (c' & Hc' & Hxc'). assert (c' = c) by (eapply pair_val; [exact D6| |]; eassumption). now subst.
      + apply in_map_iff in Hpn as ((p' & pc) & Ep & Hpc). cbn in Ep. subst p'. rewrite (proj2 (Hphi p pc) Hpc).
        destruct Hp as (f & Hf & Hcp & Ha & Hfc & Hy).
        assert (K : contained_via M X f = true) by (unfold contained_via; now rewrite Hcp, Ha, Hfc).
        destruct (Forall2_in_l _ _ _ x (l_slot _ _ _ _ _ _ _ _ (D2 p pc Hpc) f Hf K) Hy) as (c' & Hc' & Hxc').
        assert (c' = c) by (eapply pair_val; [exact D6| |]; eassumption). subst c'.
        destruct (reachable_ok M W _ (o_reach M alloc s1 Hg1)) as [G1 _]. exact (proj1 (g_cont M _ G1 pc f c Hfc Hc')).
    - intros x c Hc Hr. apply Hphi in Hc. rewrite T1. apply D4.
      destruct (Forall2_in_l _ _ _ x D3 Hr) as (c' & Hc' & Hxc'). assert (c' = c) by (eapply pair_val; [exact D6| |]; eassumption). now subst.
    - destruct Hg1 as [O1 O2 O3 O4]. constructor; cbn [withGraph graph attrs lists nextList]; auto.
      + exact (i_reach _ _ _ _ _ _ _ I2).
      + intros z Hz. destruct (Hblank z Hz) as [Hz1 Hz0]. destruct (O2 z Hz) as [b1 b2 b3 b4 b5].
        pose proof (o_blank M alloc s0 H0 z Hz0) as [c1 c2 c3 c4 c5].
        constructor; cbn [withGraph graph attrs].
        * intro f. rewrite (i_old _ _ _ _ _ _ _ I2) by assumption. apply c1.
        * now rewrite T1.
        * now rewrite T3.
        * intros o f K. destruct (in_dec Nat.eq_dec o (map snd nw)) as [Ho|Ho].
          -- apply in_map_iff in Ho as ((x & o') & Eo & Hx). cbn in Eo. subst o'. destruct (GraphModel.f_cont M f) eqn:Hfc.
             ++ rewrite (i_cont _ _ _ _ _ _ _ I2) in K by assumption. exact (b4 _ _ K).
             ++ destruct (i_from _ _ _ _ _ _ _ I2 x o f z Hx Hfc K) as [(y & Hyy & Hyx)|(_ & _ & Hyx)].
                ** apply Hz1. eapply val_in; eassumption.
                ** exact (c4 _ _ Hyx).
          -- rewrite (i_old _ _ _ _ _ _ _ I2) in K by assumption. exact (c4 _ _ K).
        * exact b5.
  Qed.

  Theorem CopyAll_ok visit fuel roots : (forall l, Permutation (visit l) l) -> separate M X g0 roots -> (forall r, In r roots -> ~ is_new s0 r) ->
    (forall r, In r roots -> (rank r < fuel)%nat) ->
    exists s' cs phi, CopyAll M X Generated alloc visit fuel s0 roots = Done (s', cs) /\ is_copy M X alloc s0 s' roots phi /\ Forall2 (fun r c => phi r = Some c) roots cs.
  Proof.
    intros Hv Hs Hold Hf.
    destruct (copyAll_ok M X alloc A s0 (copy M X Generated alloc fuel) roots) with (s := start s0) as (s1 & cs & nw & E & D).
    - intros o Ho. apply (copy_ok M W X alloc A L s0 H0 rank HR); auto.
    - apply Hs.
    - intros a b x Ha Hb Hax Hbx.
      destruct (inside_linear M W X g0 (o_reach M alloc s0 H0) a b x Hax Hbx) as [K|K]; [|symmetry]; now apply Hs.
    - exact based_start.
    - destruct (finish s1 roots cs nw visit Hs Hold D Hv) as (g & E2 & HC & HF).
      exists (withGraph s1 g), cs, (copyOf (copies s1)). split; [|auto].
      unfold CopyAll. rewrite E. cbn [cbind]. rewrite E2. reflexivity.
  Qed.

  Theorem Copy_ok visit fuel o : (forall l, Permutation (visit l) l) -> ~ is_new s0 o -> (rank o < fuel)%nat ->
    exists s' c phi, Copy M X Generated alloc visit fuel s0 o = Done (s', c) /\ is_copy M X alloc s0 s' [o] phi /\ phi o = Some c.
  Proof.
    intros Hv Hold Hf.
    destruct (CopyAll_ok visit fuel [o] Hv) as (s' & cs & phi & E & HC & HF).
    - split; [constructor; [intros []|constructor]|]. intros r r' [<-|[]] [<-|[]] _. reflexivity.
    - intros r [<-|[]]. assumption.
    - intros r [<-|[]]. assumption.
    - inversion HF as [|? c ? ? Hc Hr]; subst. inversion Hr; subst. exists s', c, phi. split; [|auto].
      unfold CopyAll in E. unfold Copy. cbn [copyAllWith] in E. destruct (copy M X Generated alloc fuel (start s0) o) as [[s1 c1]| |]; cbn [cbind] in *; try discriminate.
      destruct (orPanic _) as [g| |]; cbn [cbind] in *; try discriminate. injection E as <- <-. reflexivity.
  Qed.
End Whole.
