From Coq Require Import Setoid.
From Verif Require Import Base ListModel ListSpec ListProofs NotifyModel NotifyProofs
  GraphModel GraphSpec GraphProofs GraphInv GraphSteps GraphAcyclic AttachModel AttachErase AttachSpec.

(** ** membership of a resource *)
Inductive in_res (s : state) : obj -> resource -> Prop :=
| here x r : internalResource s x = Some r -> in_res s x r
| up x c r : internalResource s x = None -> container s x = Some c -> in_res s c r -> in_res s x r.

Lemma in_res_inv s x r : in_res s x r ->
  internalResource s x = Some r \/ internalResource s x = None /\ exists c, container s x = Some c /\ in_res s c r.
Proof. destruct 1; eauto 6. Qed.

Lemma eResource_in_res n : forall s x o r, eResource n s x = Some o -> in_res s x r -> o = Some r.
Proof.
  intros s x o r E H. revert n o E. induction H as [x r H|x c r H1 H2 H3 IH]; intros n o E; destruct n as [|n]; try discriminate;
    cbn [eResource] in E.
  - rewrite H in E. congruence.
  - rewrite H1, H2 in E. destruct (Nat.eqb_spec c x) as [->|].
    + apply (IH (S n)). cbn [eResource]. now rewrite H1, H2, Nat.eqb_refl.
    + eauto.
Qed.
Lemma eResource_some n : forall s x r, eResource n s x = Some (Some r) -> in_res s x r.
Proof.
  induction n as [|n IH]; intros s x r E; [discriminate|]. cbn [eResource] in E.
  destruct (internalResource s x) as [q|] eqn:Er; [injection E as <-; now apply here|].
  destruct (container s x) as [c|] eqn:Ec; [|discriminate]. destruct (Nat.eqb_spec c x); [discriminate|].
  eapply up; eauto.
Qed.
Lemma in_res_eResource s x r : in_res s x r -> exists n, eResource n s x = Some (Some r).
Proof.
  induction 1 as [x r H|x c r H1 H2 H3 [n IH]].
  - exists 1%nat. cbn. now rewrite H.
  - destruct (Nat.eq_dec c x) as [->|Hne]; [eauto|]. exists (S n). cbn. rewrite H1, H2.
    destruct (Nat.eqb_spec c x); [contradiction|assumption].
Qed.
Lemma eResource_iff n s x o : eResource n s x = Some o -> forall r, in_res s x r <-> o = Some r.
Proof.
  intros E r. split; [eapply eResource_in_res; eassumption|]. intros ->. eapply eResource_some; eassumption.
Qed.

Definition K (s : state) (k : registry) : Prop := forall r x, k r x = true <-> in_res s x r.
Lemma K_right s k : K s k <-> registries_right s k.
Proof.
  unfold K, registries_right. split; intros H r x; rewrite H; split.
  - apply in_res_eResource.
  - intros [n E]. eapply eResource_some; eassumption.
  - intros [n E]. eapply eResource_some; eassumption.
  - apply in_res_eResource.
Qed.

Lemma in_res_ext s s' : (forall x, container s' x = container s x) ->
  (forall x, internalResource s' x = internalResource s x) -> forall x r, in_res s x r -> in_res s' x r.
Proof.
  intros H1 H2 x r H. induction H.
  - apply here. now rewrite H2.
  - eapply up; [rewrite H2; assumption|rewrite H1; eassumption|assumption].
Qed.
Lemma K_ext s s' k : (forall x, container s' x = container s x) ->
  (forall x, internalResource s' x = internalResource s x) -> K s k -> K s' k.
Proof.
  unfold K. intros H1 H2 H r x. rewrite H. split; apply in_res_ext; auto.
Qed.

(** no object is both a root and contained *)
Definition NB (s : state) : Prop := forall x r, internalResource s x = Some r -> container s x = None.

(** ** below *)
Definition below (s : state) (x y : obj) : Prop := y = x \/ above s x y.

Lemma below_up s x y c : below s x y -> y <> x -> container s y = Some c -> below s x c.
Proof.
  intros [->|H] Hne Hc; [contradiction|]. destruct H as [d y H|d e y H H'].
  - left. congruence.
  - assert (d = c) as -> by congruence. now right.
Qed.
Lemma below_down s x y c : container s y = Some c -> below s x c -> below s x y.
Proof.
  intros Hc [->|H]; right; [now apply above_direct|eapply above_step; eassumption].
Qed.
Lemma below_trans s x y z : below s x y -> below s y z -> below s x z.
Proof.
  intros [->|H1] [->|H2]; unfold below; auto. right. eapply above_trans; eassumption.
Qed.
Lemma above_first s x y : above s x y -> exists z, container s z = Some x /\ below s z y.
Proof.
  induction 1 as [c y H|c d y H H' (z & Hz & Hb)].
  - exists y. split; [assumption|now left].
  - exists z. split; [assumption|]. eapply below_down; eassumption.
Qed.
Lemma not_below_container s x c : acyclic s -> container s x = Some c -> ~ below s x c.
Proof.
  intros Ha Hc [->|H]; [apply (Ha x); now apply above_direct|].
  apply (Ha x). eapply above_step; eassumption.
Qed.
Lemma may_not_below s o x : may_contain s o x -> ~ below s x o.
Proof. intros [H1 H2] [->|H]; [now apply H1|contradiction]. Qed.
Lemma below_ext s s' : (forall x, container s' x = container s x) -> forall x y, below s x y -> below s' x y.
Proof.
  intros H x y [->|Hb]; [now left|]. right. induction Hb.
  - apply above_direct. now rewrite H.
  - eapply above_step; [rewrite H; eassumption|assumption].
Qed.

(** ** the change of one container *)
Section Move.
  Context (s s' : state) (x : obj) (c : option obj).
  Context (Hc : forall y, container s' y = upd (container s) x c y).
  Context (Hr : forall y, y <> x -> internalResource s' y = internalResource s y).
  Context (Ha : acyclic s) (Hnb : NB s).

  Lemma move_out y r : ~ below s x y -> (in_res s' y r <-> in_res s y r).
  Proof.
    intro Hy. split; intro H; revert Hy; induction H as [y r H|y d r H1 H2 H3 IH]; intro Hy;
      assert (Hne : y <> x) by (intros ->; apply Hy; now left).
    - apply here. now rewrite <- Hr.
    - rewrite Hc, upd_ne in H2 by assumption. eapply up; [rewrite <- Hr; eassumption|eassumption|].
      apply IH. intro Hb. apply Hy. eapply below_down; eassumption.
    - apply here. now rewrite Hr.
    - eapply up; [rewrite Hr; eassumption|rewrite Hc, upd_ne by assumption; eassumption|].
      apply IH. intro Hb. apply Hy. eapply below_down; eassumption.
  Qed.
  Lemma move_in y r : below s x y -> (in_res s' y r <-> in_res s' x r).
  Proof.
    intros [->|H]; [reflexivity|].
    assert (Hstep : forall z d, container s z = Some d -> z <> x -> (in_res s' z r <-> in_res s' d r)).
    { intros z d Hd Hne. assert (Hz : internalResource s' z = None).
      { rewrite Hr by assumption. destruct (internalResource s z) as [q|] eqn:E; [|reflexivity].
        pose proof (Hnb z q E). congruence. }
      assert (Hz' : container s' z = Some d) by (rewrite Hc, upd_ne; assumption).
      split.
      - intro Hi. apply in_res_inv in Hi as [Hi|(_ & e & He & Hi)]; congruence.
      - intro Hi. eapply up; eassumption. }
    remember x as a eqn:Ea in H.
    induction H as [d y H|e d y H H' IH]; subst.
    - apply Hstep; [assumption|]. intros ->. apply (Ha x). now apply above_direct.
    - rewrite (Hstep y e); [now apply IH|assumption|]. intros ->. apply (Ha x). eapply above_step; eassumption.
  Qed.
End Move.

Lemma in_res_below s x y r : acyclic s -> NB s -> below s x y -> (in_res s y r <-> in_res s x r).
Proof.
  intros Ha Hnb. apply (move_in s s x (container s x)); auto.
  intro z. unfold upd. now destruct (Nat.eqb_spec z x) as [->|].
Qed.

(** ** replaying announcements *)
Lemma hear_app k a b : hear_all k (a ++ b) = hear_all (hear_all k a) b.
Proof. apply fold_left_app. Qed.
Lemma hear_det r l : forall k q y, hear_all k (map (Det r) l) q y = true <-> k q y = true /\ ~ (q = r /\ In y l).
Proof.
  induction l as [|x l IH]; intros k q y; cbn [map hear_all fold_left]; [cbn; tauto|].
  change (fold_left hear (map (Det r) l) (hear k (Det r x))) with (hear_all (hear k (Det r x)) (map (Det r) l)).
  rewrite IH. cbn. destruct (Nat.eqb_spec q r), (Nat.eqb_spec y x); cbn; intuition congruence.
Qed.
Lemma hear_att r l : forall k q y, hear_all k (map (Att r) l) q y = true <-> k q y = true \/ (q = r /\ In y l).
Proof.
  induction l as [|x l IH]; intros k q y; cbn [map hear_all fold_left]; [cbn; tauto|].
  change (fold_left hear (map (Att r) l) (hear k (Att r x))) with (hear_all (hear k (Att r x)) (map (Att r) l)).
  rewrite IH. cbn. destruct (Nat.eqb_spec q r), (Nat.eqb_spec y x); cbn; intuition congruence.
Qed.

Section Proofs.
  Context (M : metamodel) (W : wf_metamodel M) (fuel : nat).
  Notation walk := (walk M). Notation children := (children M).

  (** ** the walk of the tree iterator *)
  Lemma children_in s y z : In z (children s y) <-> exists f, In f (features M y) /\ f_cont M f = true /\ In z (slot s y f).
  Proof.
    unfold children. rewrite in_flat_map. split.
    - intros (f & Hf & Hz). destruct (f_cont M f) eqn:E; [eauto|destruct Hz].
    - intros (f & Hf & E & Hz). exists f. now rewrite E.
  Qed.
  Lemma children_ext s s' y : (forall f, slot s' y f = slot s y f) -> children s' y = children s y.
  Proof. intro H. unfold children. apply flat_map_ext. intro f. now rewrite H. Qed.

  Lemma mapO_in {A B} (g : A -> option B) l ls : mapO g l = Some ls ->
    (forall b, In b ls <-> exists a, In a l /\ g a = Some b).
  Proof.
    revert ls. induction l as [|a l IH]; intros ls E b; cbn [mapO] in E.
    - injection E as <-. cbn. split; [tauto|]. intros (a & [] & _).
    - destruct (g a) as [b0|] eqn:Ea; [|discriminate]. cbn [obind] in E.
      destruct (mapO g l) as [ls'|]; [|discriminate]. injection E as <-. cbn. rewrite (IH ls' eq_refl). split.
      + intros [<-|(a' & H & E)]; eauto.
      + intros (a' & [<-|H] & E); [left; congruence|right; eauto].
  Qed.

  (** the slots of the objects outside B say who their children are *)
  Definition Agr (s : state) (B : obj -> Prop) : Prop :=
    forall y, ~ B y -> forall z, In z (children s y) <-> container s z = Some y.

  Lemma mapO_total {A B} (g : A -> option B) l ls : mapO g l = Some ls -> forall a, In a l -> exists b, g a = Some b.
  Proof.
    revert ls. induction l as [|a l IH]; intros ls E a' H; [destruct H|]. cbn [mapO] in E.
    destruct (g a) as [b0|] eqn:Ea; [|discriminate]. destruct H as [<-|H]; [eauto|].
    cbn [obind] in E. destruct (mapO g l) as [ls'|]; [|discriminate]. eauto.
  Qed.

  Lemma walk_below n : forall s B x l, walk n s x = Some l -> Agr s B -> (forall y, B y -> ~ below s x y) ->
    forall y, In y l <-> below s x y.
  Proof.
    induction n as [|n IH]; intros s B x l E A HB y; [discriminate|]. cbn [AttachModel.walk] in E.
    destruct (mapO (walk n s) (children s x)) as [ls|] eqn:El; [|discriminate]. injection E as <-.
    assert (Hx : forall z, In z (children s x) <-> container s z = Some x).
    { apply A. intro Hb. apply (HB x Hb). now left. }
    assert (HBz : forall z, container s z = Some x -> forall u, B u -> ~ below s z u).
    { intros z Hz u Hu Hb. apply (HB u Hu). eapply below_trans; [|exact Hb]. right. now apply above_direct. }
    cbn [In]. rewrite in_concat. split.
    - intros [<-|(l' & Hl' & Hy)]; [now left|].
      apply (mapO_in _ _ _ El) in Hl' as (z & Hz & Ez). apply Hx in Hz.
      apply (IH s B z l' Ez A (HBz z Hz)) in Hy. eapply below_trans; [|exact Hy]. right. now apply above_direct.
    - intros [->|H]; [now left|]. right. apply above_first in H as (z & Hz & Hb).
      assert (Hz' : In z (children s x)) by now apply Hx.
      destruct (mapO_total _ _ _ El z Hz') as [l' Ez]. exists l'. split.
      + apply (mapO_in _ _ _ El). eauto.
      + apply (IH s B z l' Ez A (HBz z Hz)). assumption.
  Qed.
  Lemma walk_ext n : forall s s' x, (forall y f, slot s' y f = slot s y f) -> walk n s' x = walk n s x.
  Proof.
    induction n as [|n IH]; intros s s' x H; [reflexivity|]. cbn [AttachModel.walk]. rewrite (children_ext s s') by auto.
    assert (mapO (walk n s') (children s x) = mapO (walk n s) (children s x)) as ->; [|reflexivity].
    induction (children s x) as [|z l IHl]; cbn [mapO]; [reflexivity|]. now rewrite (IH s s' z H), IHl.
  Qed.

  (** ** EBasicSetContainer *)
  (** the registries before the call may already be wrong about what is below x, and the claim leaves out
      the objects of X; Wk is what the tree iterator visits *)
  Lemma bsc_core s k x c id s' es (X Wk : obj -> Prop) :
    basicSetContainerA M fuel s x c id = Some (s', es) ->
    acyclic s -> NB s ->
    (forall n l, walk n s x = Some l -> forall y, In y l <-> Wk y) ->
    (forall y, ~ X y -> (Wk y <-> below s x y)) ->
    (forall y, Wk y \/ ~ Wk y) ->
    (forall c', c = Some c' -> ~ below s x c') ->
    (forall c' cf r, c = Some c' -> internalResource s x = Some r -> eContainmentFeature M x c' id = Some cf -> f_resolve M cf = false) ->
    (forall r y, ~ X y -> ~ below s x y -> (k r y = true <-> in_res s y r)) ->
    (forall r y, ~ X y -> below s x y -> k r y = true -> in_res s x r \/ exists c', c = Some c' /\ in_res s c' r) ->
    (forall r y c', ~ X y -> below s x y -> c = Some c' -> in_res s x r -> in_res s c' r -> k r y = true) ->
    (c = None -> internalResource s x <> None -> forall r y, ~ X y -> (k r y = true <-> in_res s y r)) ->
    (forall r y, ~ X y -> (hear_all k es r y = true <-> in_res s' y r))
      /\ (forall r y, ~ Wk y -> (hear_all k es r y = true <-> k r y = true)) /\ NB s' /\ container s' = upd (container s) x c /\ slot s' = slot s
      /\ (forall y, y <> x -> internalResource s' y = internalResource s y)
      /\ (internalResource s' x = None \/ internalResource s' x = internalResource s x)
      /\ (forall y, y <> x -> containerFeatureID s' y = containerFeatureID s y).
  Proof.
    intros E Ha Hnb Hw Hwb Hdec Hc Hres KO KI1 KI2 KR.
    unfold basicSetContainerA in E.
    match type of E with obind ?m _ = _ => destruct m as [[[s1 old] new]|] eqn:E1 end; [|discriminate]. cbn [obind] in E.
    apply bindA_inv in E as (s2 & e1 & e2 & Ed & Ea & ->).
    assert (s2 = s1) as ->.
    { apply (unless_refines old new s1 (fun q => detached M fuel s1 q x)) in Ed; [congruence|]. intro. apply detached_refines. }
    assert (s' = setContainer s1 x c id) as ->.
    { apply (unless_refines new old _ (fun q => attached M fuel (setContainer s1 x c id) q x)) in Ea; [congruence|]. intro. apply attached_refines. }
    (* what the first part gives *)
    assert (H1 : container s1 = container s /\ slot s1 = slot s
      /\ (forall y, y <> x -> internalResource s1 y = internalResource s y)
      /\ (internalResource s1 x = None \/ internalResource s1 x = internalResource s x)
      /\ containerFeatureID s1 = containerFeatureID s
      /\ (forall r, old = Some r -> in_res s x r)
      /\ ((forall r, new = Some r <-> exists c', c = Some c' /\ in_res s c' r)
          /\ (forall r, in_res s x r -> old = Some r) /\ internalResource s1 x = None
          \/ old = None /\ new = None /\ c = None /\ s1 = s /\ internalResource s x <> None)).
    { destruct (internalResource s x) as [r|] eqn:Er.
      - destruct c as [c|].
        + destruct (eContainmentFeature M x c id) as [cf|] eqn:Ef; [|discriminate]. cbn [obind] in E1.
          rewrite (Hres c cf r eq_refl eq_refl Ef) in E1. cbn [negb] in E1.
          destruct (contentsRemove s r x) as [s0|] eqn:E0; [|discriminate]. cbn [obind] in E1.
          destruct (eResource fuel (setResource s0 x None) c) as [q|] eqn:Eq; [|discriminate]. cbn [obind] in E1.
          injection E1 as <- <- <-.
          assert (F : container s0 = container s /\ internalResource s0 = internalResource s /\ slot s0 = slot s
                    /\ containerFeatureID s0 = containerFeatureID s).
          { unfold contentsRemove in E0. destruct (removeWithNotification _ _) as [[d cb]|]; [|discriminate].
            injection E0 as <-. destruct (contentsStages_frame r (match cb with [] => [] | _ => [(d, cb)] end) s) as (F1 & F2 & F3 & F4 & _).
            auto. }
          destruct F as (F1 & F2 & F3 & F5). cbn. rewrite F1, F2, F3.
          split; [reflexivity|]. split; [reflexivity|].
          split; [intros y Hy; now rewrite upd_ne|]. split; [left; now rewrite upd_eq|]. split; [assumption|].
          split; [intros q' Hq'; injection Hq' as <-; now apply here|]. left.
          assert (Hmo : forall u, in_res (setResource s0 x None) c u <-> in_res s c u).
          { intro u. apply (move_out s _ x (container s x)).
            - intro y. cbn. rewrite F1. unfold upd. now destruct (Nat.eqb_spec y x) as [->|].
            - intros y Hy. cbn. rewrite F2. now rewrite upd_ne.
            - now apply Hc. }
          split; [|split; [|now rewrite upd_eq]].
          * intro u. split.
            -- intros ->. exists c. split; [reflexivity|]. apply Hmo. eapply eResource_some; eassumption.
            -- intros (c' & Ec & Hi). injection Ec as <-. apply Hmo in Hi. eapply eResource_in_res; eassumption.
          * intros u Hu. apply in_res_inv in Hu as [Hu|(Hu & _)]; congruence.
        + injection E1 as <- <- <-. split; [reflexivity|]. split; [reflexivity|]. split; [reflexivity|].
          split; [now right|]. split; [reflexivity|]. split; [discriminate|]. right. repeat split. discriminate.
      - destruct (resource_of fuel s (container s x)) as [p|] eqn:Ep; [|discriminate]. cbn [obind] in E1.
        destruct (resource_of fuel s c) as [q|] eqn:Eq; [|discriminate]. injection E1 as <- <- <-.
        split; [reflexivity|]. split; [reflexivity|]. split; [reflexivity|]. split; [now right|]. split; [reflexivity|].
        assert (Hp : forall r, p = Some r <-> in_res s x r).
        { intro r. unfold resource_of in Ep. destruct (container s x) as [d|] eqn:Ed'.
          - rewrite <- (eResource_iff _ _ _ _ Ep). split; [intro; eapply up; eassumption|].
            intro H. apply in_res_inv in H as [H|(_ & e & He & H)]; congruence.
          - injection Ep as <-. split; [discriminate|]. intro H. apply in_res_inv in H as [H|(_ & e & He & H)]; congruence. }
        split; [intro; apply Hp|]. left. split; [|split; [intro; apply Hp|assumption]].
        intro r. unfold resource_of in Eq. destruct c as [c|].
        + rewrite <- (eResource_iff _ _ _ _ Eq). split; [eauto|]. intros (c' & Hc' & H). congruence.
        + injection Eq as <-. split; [discriminate|]. intros (c' & Hc' & _). discriminate. }
    destruct H1 as (F1 & F2 & F3 & F4 & F6 & Hold & Hcase).
    assert (Hfr : container (setContainer s1 x c id) = upd (container s) x c) by (cbn; now rewrite F1).
    assert (Hnb' : NB (setContainer s1 x c id)).
    { intros y r Hy. rewrite Hfr. unfold upd. cbn in Hy. destruct (Nat.eqb_spec y x) as [->|Hne].
      - destruct Hcase as [(_ & _ & H)|(_ & _ & -> & _)]; [congruence|reflexivity].
      - rewrite F3 in Hy by assumption. eapply Hnb; eassumption. }
    assert (Hend : forall P Q : Prop, P -> Q -> P /\ Q /\ NB (setContainer s1 x c id) /\ container (setContainer s1 x c id) = upd (container s) x c
      /\ slot (setContainer s1 x c id) = slot s
      /\ (forall y, y <> x -> internalResource (setContainer s1 x c id) y = internalResource s y)
      /\ (internalResource (setContainer s1 x c id) x = None \/ internalResource (setContainer s1 x c id) x = internalResource s x)
      /\ (forall y, y <> x -> containerFeatureID (setContainer s1 x c id) y = containerFeatureID s y)).
    { intros P Q HP HQ. split; [assumption|]. split; [assumption|]. split; [assumption|]. split; [assumption|].
      split; [exact F2|]. split; [exact F3|]. split; [exact F4|].
      intros y Hy. cbn. rewrite upd_ne by assumption. now rewrite F6. }
    destruct Hcase as [(Hnew & Hold' & Hx1)|(-> & -> & -> & -> & Hr)].
    2: { cbn in Ed, Ea. injection Ed as <-. injection Ea as <-. cbn [app hear_all fold_left]. apply Hend; [|tauto].
         destruct (internalResource s x) as [r|] eqn:Er; [|congruence].
         intros q y HX. rewrite (KR eq_refl ltac:(discriminate) q y HX). split; apply in_res_ext; cbn; auto; intro z; unfold upd;
           destruct (Nat.eqb_spec z x) as [->|]; auto; rewrite (Hnb _ _ Er); reflexivity. }
    set (s' := setContainer s1 x c id) in *.
    assert (Hout : forall y r, ~ below s x y -> (in_res s' y r <-> in_res s y r)).
    { intros y r. apply (move_out s s' x c); [intro; now rewrite Hfr|exact F3]. }
    assert (Hin : forall y r, below s x y -> (in_res s' y r <-> in_res s' x r)).
    { intros y r. apply (move_in s s' x c); auto; intro; now rewrite Hfr. }
    assert (Hx' : forall r, in_res s' x r <-> new = Some r).
    { intro r. rewrite Hnew. split.
      - intro H. apply in_res_inv in H as [H|(_ & d & Hd & H)]; [cbn in H; congruence|].
        rewrite Hfr, upd_eq in Hd. exists d. split; [assumption|]. apply Hout; [now apply Hc|assumption].
      - intros (c' & -> & H). eapply up; [exact Hx1|rewrite Hfr; now rewrite upd_eq|]. apply Hout; [now apply Hc|assumption]. }
    assert (Hwalk : forall n l, walk n s1 x = Some l -> forall y, In y l <-> Wk y).
    { intros n l E. rewrite (walk_ext n s s1) in E by (intros; now rewrite F2). now apply (Hw n). }
    assert (Hwalk' : forall n l, walk n s' x = Some l -> forall y, In y l <-> Wk y).
    { intros n l E. rewrite (walk_ext n s s') in E by (intros; cbn; now rewrite F2). now apply (Hw n). }
    (* the heard announcements, on the objects below x and on the others *)
    assert (Hd : forall q y, hear_all k e1 q y = true <-> k q y = true /\ ~ (old = Some q /\ new <> Some q /\ Wk y)).
    { intros q y. unfold unless_same in Ed. destruct old as [p|].
      - destruct (res_eqb (Some p) new) eqn:Eqb.
        + injection Ed as <-. cbn. assert (new = Some p) by (destruct new; cbn in Eqb; [apply Nat.eqb_eq in Eqb; congruence|discriminate]).
          split; [|tauto]. intro H'. split; [assumption|]. intros (E1' & E2' & _). congruence.
        + unfold detached in Ed. destruct (walk fuel s1 x) as [l|] eqn:El; [|discriminate]. injection Ed as <-.
          rewrite hear_det, (Hwalk _ _ El).
          assert (new <> Some p) by (intros ->; cbn in Eqb; rewrite Nat.eqb_refl in Eqb; discriminate).
          split; intros [H1 H2]; (split; [assumption|]); intro H3; apply H2.
          * destruct H3 as (E' & _ & Hb). split; [congruence|assumption].
          * destruct H3 as (-> & Hb). auto.
      - injection Ed as <-. cbn. split; [|tauto]. intro. split; [assumption|]. intros (? & _). discriminate. }
    assert (Hat : forall k' q y, hear_all k' e2 q y = true <-> k' q y = true \/ (new = Some q /\ old <> Some q /\ Wk y)).
    { intros k' q y. unfold unless_same in Ea. destruct new as [p|].
      - destruct (res_eqb (Some p) old) eqn:Eqb.
        + injection Ea as <-. cbn. assert (old = Some p) by (destruct old; cbn in Eqb; [apply Nat.eqb_eq in Eqb; congruence|discriminate]).
          split; [tauto|]. intros [?|(E1' & E2' & _)]; [assumption|congruence].
        + unfold attached in Ea. destruct (walk fuel s' x) as [l|] eqn:El; [|discriminate]. injection Ea as <-.
          rewrite hear_att, (Hwalk' _ _ El).
          assert (old <> Some p) by (intros ->; cbn in Eqb; rewrite Nat.eqb_refl in Eqb; discriminate).
          split; (intros [H1|H1]; [now left|right]).
          * destruct H1 as (-> & Hb). auto.
          * destruct H1 as (E' & _ & Hb). split; [congruence|assumption].
      - injection Ea as <-. cbn. split; [tauto|]. intros [?|(? & _)]; [assumption|discriminate]. }
    apply Hend.
    2: { intros q y Hy. rewrite hear_app, Hat, Hd. tauto. }
    intros q y HX. rewrite hear_app, Hat, Hd. pose proof (Hwb y HX) as Hwy.
    destruct (Hdec y) as [Hy|Hy].
    - pose proof (proj1 Hwy Hy) as Hb. rewrite (Hin y q Hb), Hx'. split.
      + intros [[H1 H2]|(H1 & _)]; [|assumption].
        destruct (KI1 q y HX Hb H1) as [H3|H3]; [|now apply Hnew].
        apply Hold' in H3. destruct new as [p|].
        * destruct (Nat.eq_dec p q) as [->|Hne]; [reflexivity|]. exfalso. apply H2. split; [assumption|]. split; [congruence|assumption].
        * exfalso. apply H2. split; [assumption|]. split; [discriminate|assumption].
      + intro H1. destruct old as [p|] eqn:Eo.
        * destruct (Nat.eq_dec p q) as [->|Hne].
          -- left. pose proof H1 as H1'. apply Hnew in H1 as (c' & Ec & H1). split.
             ++ eapply KI2; [exact HX|exact Hb|exact Ec|now apply Hold|assumption].
             ++ intros (_ & H2 & _). congruence.
          -- right. split; [assumption|]. split; [congruence|assumption].
        * right. split; [assumption|]. split; [discriminate|assumption].
    - assert (Hb : ~ below s x y) by tauto. rewrite (Hout y q Hb), <- KO by assumption. tauto.
  Qed.

  (** ** the state between two steps *)
  Definition Fin (s : state) : Prop := exists D, forall x, container s x <> None -> In x D.
  Record Mid (s : state) (k : registry) : Prop := {
    m_k : K s k;
    m_nb : NB s;
    m_ac : acyclic s;
    m_fin : Fin s
  }.

  Lemma above_same s s' : (forall z, container s' z = container s z) -> forall x y, above s x y -> above s' x y.
  Proof.
    intros H x y Hb. induction Hb.
    - apply above_direct. now rewrite H.
    - eapply above_step; [rewrite H; eassumption|assumption].
  Qed.
  Lemma Mid_same s s' k : container s' = container s -> internalResource s' = internalResource s -> Mid s k -> Mid s' k.
  Proof.
    intros H1 H2 [A B C D]. constructor.
    - apply (K_ext s); auto; intro; congruence.
    - intros x r. rewrite H1, H2. apply B.
    - intros x Hx. apply (C x). apply (above_same s'); [intro; congruence|assumption].
    - destruct D as [D HD]. exists D. intro x. rewrite H1. apply HD.
  Qed.

  (** containment is decided by going up *)
  Lemma below_dec s : acyclic s -> Fin s -> forall x y, below s x y \/ ~ below s x y.
  Proof.
    intros Ha [D HD] x y.
    set (t := St (container s) (containerFeatureID s) (fun z => if Nat.eqb z x then Some 0%nat else None) (slot s) (contents s) (loaded s)).
    assert (Hat : acyclic t).
    { intros z Hz. apply (Ha z). revert Hz. apply above_same. reflexivity. }
    pose proof (eResource_ends t D Hat HD (S (length D)) [] y) as He.
    destruct (eResource (S (length D)) t y) as [o|] eqn:E; [|exfalso; apply He; [constructor|easy|easy|cbn; lia|reflexivity]]. clear He.
    assert (Hb : forall z, below s x z -> in_res t z 0).
    { intros z Hz. assert (Hz' : z = x \/ above t x z).
      { destruct Hz as [->|Hz]; [now left|right]. revert Hz. apply above_same. reflexivity. }
      clear Hz. destruct Hz' as [->|H]; [apply here; cbn; now rewrite Nat.eqb_refl|].
      assert (Hs : in_res t x 0) by (apply here; cbn; now rewrite Nat.eqb_refl).
      remember x as a eqn:Eax in H. induction H as [d z H|e d z H H' IH]; subst.
      - destruct (Nat.eq_dec z x) as [->|Hne]; [assumption|]. eapply up; [|exact H|assumption]. cbn.
        destruct (Nat.eqb_spec z x); [contradiction|reflexivity].
      - destruct (Nat.eq_dec z x) as [->|Hne]; [assumption|]. eapply up; [|exact H|now apply IH]. cbn.
        destruct (Nat.eqb_spec z x); [contradiction|reflexivity]. }
    assert (Hb' : forall z r, in_res t z r -> below s x z).
    { intros z r H. induction H as [z r H|z d r H1 H2 H3 IH].
      - cbn in H. destruct (Nat.eqb_spec z x); [now left|discriminate].
      - eapply below_down; [exact H2|assumption]. }
    destruct o as [r|].
    - left. eapply Hb', eResource_some, E.
    - right. intro H. apply Hb in H. apply (eResource_in_res _ _ _ _ _ E) in H. discriminate.
  Qed.

  (** ** EBasicSetContainer between two steps *)
  Lemma bsc_mid s k x c id s' es B :
    basicSetContainerA M fuel s x c id = Some (s', es) ->
    Mid s k -> Agr s B -> (forall y, B y -> ~ below s x y) ->
    (forall c', c = Some c' -> ~ below s x c') ->
    (forall c' cf r, c = Some c' -> internalResource s x = Some r -> eContainmentFeature M x c' id = Some cf -> f_resolve M cf = false) ->
    Mid s' (hear_all k es) /\ container s' = upd (container s) x c /\ slot s' = slot s
      /\ (forall y, y <> x -> internalResource s' y = internalResource s y)
      /\ (internalResource s' x = None \/ internalResource s' x = internalResource s x)
      /\ (forall y, y <> x -> containerFeatureID s' y = containerFeatureID s y).
  Proof.
    intros E [HK HN HA HF] A HB Hc Hres.
    destruct (bsc_core s k x c id s' es (fun _ => False) (below s x) E HA HN) as (R1 & _ & R2 & R3 & R4 & R5 & R6 & R7); auto.
    - intros n l El. eapply walk_below; eassumption.
    - tauto.
    - now apply below_dec.
    - intros r y _ Hb H. left. apply HK in H. now apply (in_res_below s x y r HA HN Hb).
    - intros r y c' _ Hb _ H _. apply HK. now apply (in_res_below s x y r HA HN Hb).
    - split; [|auto]. constructor.
      + intros r y. apply R1. tauto.
      + assumption.
      + destruct c as [c|].
        * apply (acyclic_cstep [(x, c)] s s' c HA).
          -- intro y. rewrite R3. unfold upd. destruct (Nat.eqb_spec y x) as [->|]; [|now left]. right. right. exists c. split; [reflexivity|now left].
          -- intros y p [Ep|[]]. injection Ep as <- <-. split; [reflexivity|]. pose proof (Hc c eq_refl) as Hn. unfold below in Hn.
             split; [intros ->|]; tauto.
        * apply (acyclic_cstep [] s s' 0%nat HA); [|intros y p []].
          intro y. rewrite R3. unfold upd. destruct (Nat.eqb_spec y x) as [->|]; [right; now left|now left].
      + destruct HF as [D HD]. exists (x :: D). intros y. rewrite R3. unfold upd.
        destruct (Nat.eqb_spec y x) as [->|]; [now left|]. right. now apply HD.
  Qed.
End Proofs.
