From Coq Require Import Permutation.
From Verif Require Import Base ListModel ListSpec ListProofs NotifyModel NotifyProofs CallbackProofs
  GraphModel GraphSpec GraphProofs GraphInv.

Section Steps.
  Context (M : metamodel) (W : wf_metamodel M).
  Notation f_many := (f_many M). Notation f_cont := (f_cont M). Notation f_opp := (f_opp M).
  Notation f_id := (f_id M). Notation f_resolve := (f_resolve M). Notation features := (features M).
  Notation isContainer := (isContainer M). Notation feature_at := (feature_at M).
  Notation getFeatureID := (getFeatureID M). Notation link_typed := (link_typed M).
  Notation GInv := (GInv M). Notation RInv := (RInv M). Notation code := (code M).

  Lemma GInv_view s o f d : GInv s -> GInv (setSlot (setSlot s o f d) o f (slot s o f)).
  Proof.
    intro G. apply (GInv_ext M _ _ G); try reflexivity. intros a k.
    destruct (slot_dec a k o f) as [[-> ->]|D]; [now rewrite slot_eq|]. now rewrite !slot_ne.
  Qed.
  Lemma GInv_view_self s o f : GInv s -> GInv (setSlot s o f (slot s o f)).
  Proof.
    intro G. apply (GInv_ext M _ _ G); try reflexivity. intros a k.
    destruct (slot_dec a k o f) as [[-> ->]|D]; [now rewrite slot_eq|]. now rewrite !slot_ne.
  Qed.

  Lemma GInv_same_elements s s' o f : GInv s ->
    (forall x, container s' x = container s x) ->
    (forall x, containerFeatureID s' x = containerFeatureID s x) ->
    (forall a k, a <> o \/ k <> f -> slot s' a k = slot s a k) ->
    NoDup (slot s' o f) -> (forall y, In y (slot s' o f) <-> In y (slot s o f)) -> GInv s'.
  Proof.
    intros G H1 H2 Hs Hnd Hl.
    assert (Hin : forall a k y, In y (slot s' a k) <-> In y (slot s a k)).
    { intros a k y. destruct (slot_dec a k o f) as [[-> ->]|D]; [apply Hl|]. now rewrite Hs. }
    constructor.
    - intros a k y. rewrite Hin. apply (g_typed M s G).
    - intros a k. destruct (slot_dec a k o f) as [[-> ->]|D]; [assumption|]. rewrite Hs by assumption. apply (g_nodup M s G).
    - intros a k Hk. destruct (slot_dec a k o f) as [[-> ->]|D].
      + apply (incl_short (slot s o f)); [assumption|apply Hl|now apply (g_single M s G)].
      + rewrite Hs by assumption. now apply (g_single M s G).
    - intros a k y. rewrite H1, H2, Hin. apply (g_cont M s G).
    - intros y c. rewrite H1. intro H. destruct (g_ex M s G _ _ H) as (k & Hk & Hy). exists k. now rewrite Hin.
    - intros a k y g. rewrite !Hin. apply (g_sym M s G).
  Qed.

  Lemma GInv_unview s o f V : GInv (setSlot s o f V) -> NoDup (slot s o f) ->
    (forall y, In y (slot s o f) <-> In y V) -> GInv s.
  Proof.
    intros G Hnd Hl. apply (GInv_same_elements _ _ o f G); try reflexivity.
    - intros a k D. now rewrite slot_ne.
    - assumption.
    - intro y. rewrite slot_eq. apply Hl.
  Qed.

  (** ** list operations *)
  Lemma fold_rem o f R : forall s V, GInv (setSlot s o f V) -> RInv s -> NoDup R -> incl R V ->
    exists s' V', foldM (fun s x => listInverseRemove M s o f x) R s = Some s'
      /\ slot s' o f = slot s o f /\ GInv (setSlot s' o f V') /\ RInv s'
      /\ (forall y, In y V' <-> In y V /\ ~ In y R).
  Proof.
    induction R as [|x R IH]; intros s V G Rs Hnd Hi; cbn [foldM].
    - exists s, V. split; [reflexivity|]. split; [reflexivity|]. split; [assumption|]. split; [assumption|].
      intro y. cbn. tauto.
    - destruct (rem_ok M W s o f x V G Rs) as (s1 & -> & Hs1 & G1 & R1); [apply Hi; now left|].
      cbn [obind]. inversion_clear Hnd as [|? ? Hx Hnd'].
      destruct (IH s1 (rm x V) G1 R1 Hnd') as (s' & V' & E & Hs' & G' & R' & Hl).
      { intros y Hy. apply rm_in. split; [apply Hi; now right|]. intros ->. contradiction. }
      exists s', V'. split; [assumption|]. split; [congruence|]. split; [assumption|]. split; [assumption|].
      intro y. rewrite Hl, rm_in. cbn. split.
      + intros [[? ?] ?]. split; [assumption|]. intros [->|]; tauto.
      + intros [? N]. split; [split; [assumption|intros ->; apply N; now left]|intro; apply N; now right].
  Qed.

  Lemma fold_add o f A : f_many f = true -> isContainer f = false ->
    forall s V, GInv (setSlot s o f V) -> RInv s -> NoDup A ->
    (forall x, In x A -> ~ In x V) -> (forall x, In x A -> link_typed o f x) ->
    exists s' V', foldM (fun s x => listInverseAdd M s o f x) A s = Some s'
      /\ slot s' o f = slot s o f /\ GInv (setSlot s' o f V') /\ RInv s'
      /\ (forall y, In y V' <-> In y V \/ In y A).
  Proof.
    intros Hm Hc. induction A as [|x A IH]; intros s V G Rs Hnd Hd Ht; cbn [foldM].
    - exists s, V. split; [reflexivity|]. split; [reflexivity|]. split; [assumption|]. split; [assumption|].
      intro y. cbn. tauto.
    - destruct (add_ok M W s o f x V G Rs) as (s1 & -> & Hs1 & G1 & R1); auto.
      { apply Hd; now left. } { apply Ht; now left. } { congruence. }
      cbn [obind]. inversion_clear Hnd as [|? ? Hx Hnd'].
      destruct (IH s1 (V ++ [x]) G1 R1 Hnd') as (s' & V' & E & Hs' & G' & R' & Hl).
      { intros y Hy. rewrite in_app_iff. intros [Hv|[->|[]]]; [|contradiction]. eapply Hd; [right|]; eassumption. }
      { intros y Hy. apply Ht. now right. }
      exists s', V'. split; [assumption|]. split; [congruence|]. split; [assumption|]. split; [assumption|].
      intro y. rewrite Hl, in_app_iff. cbn. tauto.
  Qed.

  (** what the permutation of [effect_good] means for the elements *)
  Lemma effect_elements data p st R A : NoDup data -> effect_good data p st R A ->
    NoDup (final data st) /\ NoDup R
    /\ forall y, In y (final data st) <-> (In y data /\ ~ In y R) \/ In y A.
  Proof.
    intros Hnd (P & Hi & HA & Hd & _).
    assert (N1 : NoDup (data ++ A)).
    { apply NoDup_app_iff. split; [assumption|]. split; [assumption|].
      intros y Hy HyA. exact (Hd y HyA Hy). }
    pose proof (Permutation_NoDup P N1) as N2. apply NoDup_app_iff in N2 as (N2 & N3 & N4).
    split; [assumption|]. split; [assumption|]. intro y. split.
    - intro Hy. assert (Hin : In y (data ++ A)).
      { eapply Permutation_in; [apply Permutation_sym, P|]. apply in_app_iff. now left. }
      apply in_app_iff in Hin as [Hin|Hin]; [|now right]. left. split; [assumption|]. now apply N4.
    - intro Hy. assert (Hin : In y (data ++ A)) by (apply in_app_iff; tauto).
      eapply Permutation_in in Hin; [|exact P]. apply in_app_iff in Hin as [Hin|Hin]; [assumption|].
      destruct Hy as [Hy|Hy]; [tauto|]. destruct (Hd y Hy). now apply Hi.
  Qed.

  Lemma many_not_container f : f_many f = true -> isContainer f = false.
  Proof.
    intro Hm. unfold GraphModel.isContainer. destruct (GraphModel.f_opp M f) as [g|] eqn:Eg; [|reflexivity].
    destruct (GraphModel.f_cont M g) eqn:Ec; [|reflexivity].
    destruct (wf_opp M W f g Eg) as [Eg' _]. destruct (wf_cont M W g f Ec Eg'). congruence.
  Qed.

  Lemma listOp_ok s o f p : GInv s -> RInv s -> legal M s (OList o f p) ->
    match list_effect (slot s o f) p with
    | None => listOp M s o f p = None
    | Some (st, _, _) => exists s', listOp M s o f p = Some s' /\ GInv s' /\ RInv s'
                            /\ slot s' o f = final (slot s o f) st
    end.
  Proof.
    intros G R (Hm & Hf & Hok & Hargs). unfold listOp.
    destruct (list_effect (slot s o f) p) as [[[st Rm] A]|] eqn:E; [|reflexivity]. cbn [obind].
    pose proof (g_nodup M s G o f) as Hnd.
    apply list_effect_good in E as [E _]; [|assumption|assumption].
    destruct (effect_elements _ _ _ _ _ Hnd E) as (N1 & N2 & Hel).
    destruct E as (_ & Hi & HA & Hd & Harg).
    pose proof (many_not_container f Hm) as Hnc.
    destruct (fold_rem o f Rm (setSlot s o f (final (slot s o f) st)) (slot s o f)) as (s1 & V1 & -> & Hs1 & G1 & R1 & Hl1);
      [now apply GInv_view|exact R|assumption|assumption|]. cbn [obind].
    destruct (fold_add o f A Hm Hnc s1 V1 G1 R1 HA) as (s2 & V2 & -> & Hs2 & G2 & R2 & Hl2).
    { intros x Hx Hv. apply Hl1 in Hv as [Hv _]. exact (Hd x Hx Hv). }
    { intros x Hx. destruct (Harg x Hx) as [Ha|Ha]; [now apply Hargs|]. now apply (g_typed M s G). }
    rewrite slot_eq in Hs1.
    exists s2. split; [reflexivity|]. split; [|split; [assumption|congruence]].
    apply (GInv_unview s2 o f V2 G2); rewrite Hs2, Hs1; [assumption|].
    intro y. rewrite Hel, Hl2, Hl1. reflexivity.
  Qed.

  (** ** single-valued references *)
  Lemma plain_set s o f l : GInv s -> RInv s -> f_opp f = None -> f_cont f = false -> In f (features o) ->
    NoDup l -> (f_many f = false -> (length l <= 1)%nat) -> GInv (setSlot s o f l) /\ RInv (setSlot s o f l).
  Proof.
    intros G R Ho Hc Hf Hnd Hl. split; [|exact R].
    apply (plain_slot M W s _ o f G Ho Hc).
    - intro; split; reflexivity.
    - intros a k D. now rewrite slot_ne.
    - now rewrite slot_eq.
    - now rewrite slot_eq.
    - auto.
  Qed.

  Lemma setSlot_twice s o f l l' : forall a k, slot (setSlot (setSlot s o f l) o f l') a k = slot (setSlot s o f l') a k.
  Proof.
    intros a k. destruct (slot_dec a k o f) as [[-> ->]|D]; [now rewrite !slot_eq|]. now rewrite !slot_ne.
  Qed.

  Lemma eSet_inverse s o f v : GInv s -> RInv s -> In f (features o) -> f_many f = false -> isContainer f = false ->
    (isBidirectional M f || f_cont f) = true ->
    (forall x, v = Some x -> link_typed o f x) ->
    exists s', eSet M s o f v = Some s' /\ GInv s' /\ RInv s' /\ slot s' o f = to_list v.
  Proof.
    intros G R Hf Hm Hnc Hb Ht. unfold eSet. rewrite Hnc, Hb. cbv zeta.
    pose proof (g_single M s G o f Hm) as Hsi. pose proof (g_nodup M s G o f) as Hnd.
    assert (Hold : slot s o f = to_list (hd_error (slot s o f))).
    { destruct (slot s o f) as [|y [|z l]]; cbn in *; [reflexivity|reflexivity|lia]. }
    destruct (some_eqb (hd_error (slot s o f)) v) eqn:Eq.
    { exists s. split; [reflexivity|]. split; [assumption|]. split; [assumption|]. rewrite Hold. f_equal.
      destruct (hd_error (slot s o f)), v; cbn in Eq; try discriminate; [|reflexivity].
      apply Nat.eqb_eq in Eq. congruence. }
    (* both ends through the list primitives *)
    assert (Hcall : forall s1, (match v with Some x => ~ In x [] | None => True end) ->
      slot s1 o f = slot s o f -> GInv (setSlot s1 o f []) -> RInv s1 ->
      exists s2, when v s1 (fun x => listInverseAdd M s1 o f x) = Some s2
        /\ GInv (setSlot s2 o f (to_list v)) /\ RInv s2).
    { intros s1 _ Hs1 G1 R1. destruct v as [x|]; cbn [when to_list]; [|eauto].
      destruct (add_ok M W s1 o f x [] G1 R1) as (s2 & -> & _ & G2 & R2); auto. eauto. }
    assert (Hrem : exists s1, when (hd_error (slot s o f)) s (fun y => listInverseRemove M s o f y) = Some s1
        /\ slot s1 o f = slot s o f /\ GInv (setSlot s1 o f []) /\ RInv s1).
    { destruct (hd_error (slot s o f)) as [y|] eqn:Ey; cbn [when to_list] in *.
      - destruct (rem_ok M W s o f y (slot s o f)) as (s1 & -> & Hs1 & G1 & R1);
          [now apply GInv_view_self|assumption|rewrite Hold; now left|].
        exists s1. split; [reflexivity|]. split; [assumption|]. split; [|assumption].
        rewrite Hold in G1. cbn in G1. rewrite Nat.eqb_refl in G1. exact G1.
      - exists s. split; [reflexivity|]. split; [reflexivity|]. split; [|assumption].
        rewrite <- Hold. now apply GInv_view_self. }
    destruct Hrem as (s1 & Er & Hs1 & G1 & R1).
    destruct (Hcall s1) as (s2 & Ea & G2 & R2); auto. { destruct v; cbn; auto. }
    assert (Hres : forall s3, s3 = s2 -> exists s', Some (setSlot s3 o f (to_list v)) = Some s' /\ GInv s' /\ RInv s' /\ slot s' o f = to_list v).
    { intros s3 ->. eexists. split; [reflexivity|]. split; [assumption|]. split; [exact R2|apply slot_eq]. }
    unfold listInverseAdd, listInverseRemove in *.
    destruct (GraphModel.f_opp M f) as [g|] eqn:Eg.
    - (* bidirectional *)
      assert (E1 : when (hd_error (slot s o f)) s (fun y => inverseRemove M s y o (getFeatureID y g)) = Some s1).
      { rewrite <- Er. destruct (hd_error (slot s o f)) as [y|]; [|reflexivity]. cbn [when].
        assert (Hy : In y (slot s o f)) by (rewrite Hold; now left).
        destruct (g_typed M s G _ _ _ Hy) as [[_ T2] _]. specialize (T2 _ Eg).
        apply (feat M W) in T2 as (_ & -> & _). reflexivity. }
      rewrite E1. cbn [obind].
      assert (E2 : when v s1 (fun x => inverseAdd M s1 x o (getFeatureID x g)) = Some s2).
      { rewrite <- Ea. destruct v as [x|]; [|reflexivity]. cbn [when].
        destruct (Ht x eq_refl) as [_ T2]. specialize (T2 _ Eg).
        apply (feat M W) in T2 as (_ & -> & _). reflexivity. }
      rewrite E2. now apply Hres.
    - unfold isBidirectional in Hb. rewrite Eg in Hb. cbn in Hb. rewrite Hb in *.
      pose proof Hf as Hf'. apply (feat M W) in Hf' as (_ & -> & _). rewrite Er. cbn [obind]. rewrite Ea. now apply Hres.
  Qed.

  Lemma eUnset_inverse s o f : GInv s -> RInv s -> In f (features o) -> f_many f = false -> isContainer f = false ->
    (isBidirectional M f || f_cont f) = true ->
    exists s', eUnset M s o f = Some s' /\ GInv s' /\ RInv s' /\ slot s' o f = [].
  Proof.
    intros G R Hf Hm Hnc Hb.
    destruct (eSet_inverse s o f None G R Hf Hm Hnc Hb) as (s' & E & G' & R' & Hs'); [discriminate|].
    unfold eSet in E. unfold eUnset. rewrite Hnc, Hb in *. rewrite Hm. cbv zeta in *.
    destruct (hd_error (slot s o f)) as [y|] eqn:Ey; cbn [some_eqb when obind] in *.
    - exists s'. split; [|auto]. rewrite <- E. clear E.
      destruct (GraphModel.f_opp M f); destruct (inverseRemove M s y o _); reflexivity.
    - injection E as <-. assert (slot s o f = []) as El by (destruct (slot s o f); [reflexivity|discriminate]).
      eexists; split; [reflexivity|]. split; [|split; [exact R|apply slot_eq]].
      rewrite <- El at 1. now apply GInv_view_self.
  Qed.

  (** ** container references *)
  Lemma container_pair f : isContainer f = true ->
    exists f', f_opp f = Some f' /\ f_opp f' = Some f /\ f_cont f' = true /\ f_many f = false
      /\ isContainer f' = false /\ f_cont f = false.
  Proof.
    unfold GraphModel.isContainer at 1. destruct (GraphModel.f_opp M f) as [f'|] eqn:E; [|discriminate].
    intro Hc. exists f'. split; [reflexivity|]. destruct (wf_opp M W _ _ E) as [E' _].
    destruct (wf_cont M W f' f Hc E') as [H1 H2].
    repeat split; auto. now apply (cont_not_container M W).
  Qed.

  (** the state once x is out of its container: what removeFromContainer then a reset of x's container give *)
  Lemma detach s x : GInv s -> RInv s ->
    exists s1, when (container s x) s (fun _ => removeFromContainer M s x) = Some s1
      /\ RInv s1 /\ container s1 = container s /\ containerFeatureID s1 = containerFeatureID s
      /\ internalResource s1 = internalResource s
      /\ (forall id, GInv (setContainer s1 x None id))
      /\ (forall a k, ~ In x (slot s a k) -> slot s1 a k = slot s a k)
      /\ (forall a k, f_cont k = true -> ~ In x (slot s1 a k)).
  Proof.
    intros G R. destruct (container s x) as [c|] eqn:Ec; cbn [when].
    - destruct (removeFromContainer_ok M W s s x c G eq_refl eq_refl Ec) as (f0 & Hf0 & Hx0 & Hgo).
      destruct (Hgo eq_refl) as (l' & -> & Hl').
      eexists; split; [reflexivity|]. split; [exact R|]. split; [reflexivity|]. split; [reflexivity|].
      split; [reflexivity|]. split; [|split].
      + intro id. apply (unlink_cont M W s _ c f0 x G Hf0 Hx0).
        * intros y Hy. cbn. now rewrite !upd_ne.
        * cbn. now rewrite upd_eq.
        * intros a k D. change (slot (setSlot s c f0 l') a k = slot s a k). now rewrite slot_ne.
        * change (minus x (slot s c f0) (slot (setSlot s c f0 l') c f0)). now rewrite slot_eq.
      + intros a k Hn. destruct (slot_dec a k c f0) as [[-> ->]|D]; [contradiction|]. now rewrite slot_ne.
      + intros a k Hk. destruct (slot_dec a k c f0) as [[-> ->]|D].
        * rewrite slot_eq. intro Hin. apply Hl' in Hin. tauto.
        * rewrite slot_ne by assumption. intro Hin.
          destruct (place_unique M W s G x c f0 a k Hf0 Hk Hx0 Hin). lia.
    - exists s. split; [reflexivity|]. split; [exact R|]. split; [reflexivity|]. split; [reflexivity|].
      split; [reflexivity|]. split; [|split; [reflexivity|]].
      + intro id. constructor.
        * exact (g_typed M _ G).
        * exact (g_nodup M _ G).
        * exact (g_single M _ G).
        * intros a k y Hk Hy. destruct (g_cont M _ G a k y Hk Hy) as [C1 C2]. cbn.
          assert (Hne : y <> x) by congruence. now rewrite !upd_ne.
        * intros y c. cbn. unfold upd. destruct (Nat.eqb_spec y x); [discriminate|]. apply (g_ex M _ G).
        * exact (g_sym M _ G).
      + intros a k Hk Hin. destruct (g_cont M _ G a k x Hk Hin). congruence.
  Qed.

  Lemma eSet_container s o f v : GInv s -> RInv s -> In f (features o) -> isContainer f = true ->
    (forall c, v = Some c -> link_typed o f c) ->
    exists s', eSet M s o f v = Some s' /\ GInv s' /\ RInv s' /\ container s' o = v
      /\ (v <> None -> containerFeatureID s' o = f_id f).
  Proof.
    intros G R Hf Hc Ht. unfold eSet. rewrite Hc. cbv zeta.
    destruct (container_pair f Hc) as (f' & Eg & Eg' & Hf' & Hmf & Hnc' & Hcf).
    pose proof Hf as Hfo. apply (feat M W) in Hfo as (Hat & -> & H0).
    destruct (detach s o G R) as (s1 & Ed & R1 & Ec1 & Ei1 & Er1 & G1 & Hs1 & Hout1).
    destruct v as [c|].
    - match goal with |- context [if ?b then _ else _] => destruct b eqn:Eg0 end.
      2: { apply orb_false_iff in Eg0 as [E1 E2]. apply negb_false_iff in E1, E2.
           exists s. split; [reflexivity|]. split; [assumption|]. split; [assumption|].
           destruct (container s o); cbn in E1; [|discriminate]. apply Nat.eqb_eq in E1.
           split; [congruence|]. intros _. lia. }
      rewrite Ed. cbn [obind when]. rewrite Eg. cbn [obind].
      destruct (Ht c eq_refl) as [_ T2]. specialize (T2 _ Eg).
      pose proof T2 as T2'. apply (feat M W) in T2' as (Hatc & -> & H0c).
      assert (Hno : ~ In o (slot s c f')).
      { intro Hin. destruct (g_cont M s G c f' o Hf' Hin) as [C1 C2]. unfold GraphInv.code in C2.
        rewrite Eg' in C2. rewrite C1, C2 in Eg0. cbn in Eg0. rewrite Nat.eqb_refl in Eg0. cbn in Eg0.
        destruct (Z.eqb_spec (f_id f) (f_id f)); [discriminate|lia]. }
      pose proof (Hs1 c f' Hno) as Es1.
      assert (Htl : link_typed c f' o).
      { split; [assumption|]. intros g Hg. rewrite Eg' in Hg. injection Hg as <-. assumption. }
      assert (Hcode : code f' = f_id f) by (unfold GraphInv.code; now rewrite Eg').
      destruct (containment_feature M W c f' o Hf' Htl) as [cf Hcf'].
      rewrite Hcode in Hcf'.
      unfold inverseAdd. destruct (Z.geb_spec (f_id f') 0); [|lia].
      unfold basicInverseAdd. fold (feature_at c (f_id f')). rewrite Hatc. cbn [obind]. fold (isContainer f'). rewrite Hnc'.
      pose proof (g_nodup M s G c f') as Hnd.
      (* any state s2 in which c's slot is free gives the result *)
      assert (Hend : forall s2 l, GInv (setContainer s2 o None 0) -> RInv s2 ->
                (f_many f' = false -> slot s2 c f' = []) -> plus o (slot s2 c f') l ->
                exists s', basicSetContainer M (setSlot s2 c f' l) o (Some c) (f_id f) = Some s'
                  /\ GInv s' /\ RInv s' /\ container s' o = Some c
                  /\ (Some c <> None -> containerFeatureID s' o = f_id f)).
      { intros s2 l G2 R2 Hm2 Hpl.
        destruct (basicSetContainer_some M (setSlot s2 c f' l) o c (f_id f) cf R2 Hcf')
          as (s3 & -> & E1 & E2 & E3 & R3).
        eexists; split; [reflexivity|]. split; [|split; [exact R3|cbn; rewrite !upd_eq; auto]].
        apply (link_cont M W _ _ c f' o G2 Hf').
        - cbn. now rewrite upd_eq.
        - assumption.
        - assumption.
        - intros y Hy. cbn. rewrite !upd_ne by assumption. now rewrite E1, E2.
        - cbn. now rewrite upd_eq.
        - cbn. now rewrite upd_eq, Hcode.
        - intros a k D. cbn [setContainer slot]. rewrite E3. now rewrite slot_ne.
        - cbn [setContainer slot]. rewrite E3. rewrite slot_eq. assumption. }
      destruct (GraphModel.f_many M f') eqn:Em.
      + cbn [doAdd obind]. rewrite Es1. apply Hend; auto; [congruence|]. rewrite Es1. now apply plus_snoc.
      + rewrite Es1. pose proof (g_single M s G c f' Em) as Hsi.
        destruct (slot s c f') as [|y [|z l]] eqn:Esl; [| |cbn in Hsi; lia].
        * cbn [obind]. apply Hend; auto. rewrite Es1. apply plus_one.
        * assert (Hyo : y <> o) by (intros ->; apply Hno; now left).
          rewrite Hf'. fold (getFeatureID c f'). pose proof T2 as T3. apply (feat M W) in T3 as (_ & -> & _).
          unfold inverseRemove. destruct (Z.geb_spec (BASE - f_id f') 0); [unfold BASE in *; lia|].
          rewrite basicSetContainer_none. cbn [obind].
          (* go through the state where c's slot is emptied *)
          assert (Gy : GInv (setContainer (setSlot (setContainer s1 y None (BASE - f_id f')) c f' []) o None 0)).
          { apply (unlink_cont M W (setContainer s1 o None 0) _ c f' y (G1 0) Hf').
            - cbn [setContainer slot]. rewrite Es1. now left.
            - intros u Hu. cbn. unfold upd. destruct (Nat.eqb_spec u o); [auto|].
              destruct (Nat.eqb_spec u y); [contradiction|auto].
            - cbn. rewrite upd_ne by assumption. now rewrite upd_eq.
            - intros a k D. cbn [setContainer slot]. now rewrite slot_ne.
            - cbn [setContainer slot]. rewrite slot_eq, Es1. apply minus_single; [cbn; lia|now left]. }
          destruct (Hend (setSlot (setContainer s1 y None (BASE - f_id f')) c f' []) [o] Gy)
            as (s' & E & Hres).
          -- apply (setContainer_RInv M s1); [assumption|]. discriminate.
          -- intros _. now rewrite slot_eq.
          -- rewrite slot_eq. apply plus_one.
          -- (* same slots, written once *)
             destruct (basicSetContainer_some M (setSlot (setContainer s1 y None (BASE - f_id f')) c f' [o]) o c (f_id f) cf)
               as (s3 & E3 & E4 & E5 & E6 & R3); [|assumption|].
             { apply (setContainer_RInv M s1); [assumption|]. discriminate. }
             eexists; split; [exact E3|].
             assert (Gf : GInv (setContainer s3 o (Some c) (f_id f))).
             { apply (link_cont M W _ _ c f' o Gy Hf').
               - cbn. now rewrite upd_eq.
               - assumption.
               - intros _. cbn [setContainer slot]. now rewrite slot_eq.
               - intros u Hu. cbn. rewrite E4, E5. cbn. unfold upd. destruct (Nat.eqb_spec u o); [contradiction|auto].
               - cbn. now rewrite upd_eq.
               - cbn. now rewrite upd_eq, Hcode.
               - intros a k D. cbn [setContainer slot]. rewrite E6. now rewrite !slot_ne.
               - cbn [setContainer slot]. rewrite E6, !slot_eq. apply plus_one. }
             split; [assumption|]. split; [exact R3|]. cbn. rewrite !upd_eq. auto.
    - match goal with |- context [if ?b then _ else _] => destruct b eqn:Eg0 end.
      + rewrite Ed. cbn [obind when]. rewrite basicSetContainer_none.
        eexists; split; [reflexivity|]. split; [apply G1|]. split; [apply setContainer_RInv; [assumption|discriminate]|].
        cbn. rewrite upd_eq. split; [reflexivity|]. congruence.
      + exists s. split; [reflexivity|]. split; [assumption|]. split; [assumption|].
        rewrite orb_false_r in Eg0. destruct (container s o); [discriminate|]. split; [reflexivity|congruence].
  Qed.

  Lemma eUnset_container s o f : GInv s -> RInv s -> In f (features o) -> isContainer f = true ->
    exists s', eUnset M s o f = Some s' /\ GInv s' /\ RInv s' /\ container s' o = None.
  Proof.
    intros G R Hf Hc. unfold eUnset. rewrite Hc.
    destruct (detach s o G R) as (s1 & Ed & R1 & Ec1 & Ei1 & Er1 & G1 & _).
    destruct (container s o) as [c|] eqn:Ec.
    - cbn [when] in Ed. rewrite Ed. cbn [obind]. rewrite basicSetContainer_none.
      eexists; split; [reflexivity|]. split; [apply G1|]. split; [apply setContainer_RInv; [assumption|discriminate]|].
      cbn. now rewrite upd_eq.
    - eauto.
  Qed.

  (** ** resource contents *)
  Definition view (s : state) (r : resource) (K : list nat) : state :=
    setLoaded (setContents s r K) r (ne K).

  Lemma RInv_ext s s' : RInv s -> (forall x, container s' x = container s x) ->
    (forall x, containerFeatureID s' x = containerFeatureID s x) ->
    (forall x, internalResource s' x = internalResource s x) ->
    (forall r x, In x (contents s' r) <-> In x (contents s r)) -> (forall r, NoDup (contents s' r)) ->
    (forall r, loaded s' r = ne (contents s' r)) -> RInv s'.
  Proof.
    intros (R1 & R2 & R3 & R4) H1 H2 H3 H4 H5 H6. split; [|split; [|split]]; auto.
    - intros x r. rewrite H4, H3. apply R1.
    - intros x c r. rewrite H1, H2, H3. apply R4.
  Qed.

  Lemma contentsRemove_gen s q x : NoDup (contents s q) -> In x (contents s q) ->
    loaded s q = ne (contents s q) ->
    exists s1, contentsRemove s q x = Some s1
      /\ container s1 = container s /\ containerFeatureID s1 = containerFeatureID s
      /\ slot s1 = slot s /\ internalResource s1 = internalResource s
      /\ (forall q', q' <> q -> contents s1 q' = contents s q' /\ loaded s1 q' = loaded s q')
      /\ contents s1 q = rm x (contents s q) /\ loaded s1 q = ne (rm x (contents s q)).
  Proof.
    intros Hnd Hin Hl. unfold contentsRemove.
    destruct (removeWithNotification_ok (contents s q) x Hnd) as (cb & -> & Hcb & _).
    destruct (Hcb Hin) as [i ->]. cbn [obind]. eexists; split; [reflexivity|].
    cbn [contentsStages setLoaded setContents container containerFeatureID slot internalResource contents loaded].
    repeat (split; [reflexivity|]).
    split; [intros q' Hq; now rewrite !upd_ne|]. rewrite !upd_eq. split; [reflexivity|].
    cbn [fold_left didContents]. rewrite Hl, (ne_zlen (rm x _)).
    destruct (zlen (rm x (contents s q)) =? 0); [reflexivity|]. cbn.
    destruct (contents s q); [destruct Hin|reflexivity].
  Qed.

  Lemma setres_rem s r K x : GInv s -> RInv (view s r K) -> In x K ->
    exists s', eSetResource M s x None = Some s' /\ contents s' r = contents s r /\ loaded s' r = loaded s r
      /\ GInv s' /\ RInv (view s' r (rm x K)).
  Proof.
    intros G R Hx. pose proof R as (R1 & R2 & R3 & R4).
    assert (Hres : internalResource s x = Some r).
    { apply (R1 x r). cbn. now rewrite upd_eq. }
    unfold eSetResource. rewrite Hres. cbn [obind].
    assert (E : match container s x with
                | Some c => let? f := eContainmentFeature M x c (containerFeatureID s x) in
                            if GraphModel.f_resolve M f then Some s
                            else let? s' := removeFromContainer M s x in basicSetContainer M s' x None (-1)
                | None => Some s
                end = Some s).
    { destruct (container s x) as [c|] eqn:Ec; [|reflexivity].
      destruct (R4 x c r Ec Hres) as (cf & Hcf & Hrv). cbn in Hcf. rewrite Hcf. cbn [obind]. now rewrite Hrv. }
    rewrite E. cbn [obind]. eexists; split; [reflexivity|]. split; [reflexivity|]. split; [reflexivity|].
    split; [apply (GInv_ext M _ _ G); reflexivity|].
    pose proof (R2 r) as Hnd. cbn in Hnd. rewrite upd_eq in Hnd.
    split; [|split; [|split]]; cbn in *.
    - intros y q. unfold upd. specialize (R1 y q). unfold upd in R1.
      destruct (Nat.eqb_spec q r) as [Eq|Hq]; [rewrite Eq in *|].
      + rewrite rm_in, R1. destruct (Nat.eqb_spec y x); intuition congruence.
      + rewrite R1. destruct (Nat.eqb_spec y x) as [->|]; [|reflexivity]. rewrite Hres. intuition congruence.
    - intro q. specialize (R2 q). unfold upd in *. destruct (Nat.eqb_spec q r); [now apply rm_NoDup|assumption].
    - intro q. specialize (R3 q). unfold upd in *. now destruct (Nat.eqb_spec q r).
    - intros y c q. unfold upd. destruct (Nat.eqb_spec y x); [discriminate|apply R4].
  Qed.

  Lemma setres_add s r K x : GInv s -> RInv (view s r K) -> ~ In x K ->
    exists s', eSetResource M s x (Some r) = Some s' /\ contents s' r = contents s r /\ loaded s' r = loaded s r
      /\ GInv s' /\ RInv (view s' r (K ++ [x])).
  Proof.
    intros G R Hx. pose proof R as (R1 & R2 & R3 & R4). unfold eSetResource.
    (* leaving the former resource *)
    assert (H1 : exists s1, match internalResource s x with Some q => contentsRemove s q x | None => Some s end = Some s1
              /\ container s1 = container s /\ containerFeatureID s1 = containerFeatureID s /\ slot s1 = slot s
              /\ internalResource s1 = internalResource s
              /\ contents s1 r = contents s r /\ loaded s1 r = loaded s r
              /\ (forall q, q <> r -> NoDup (contents s1 q) /\ loaded s1 q = ne (contents s1 q)
                                /\ forall y, In y (contents s1 q) <-> In y (contents s q) /\ y <> x)).
    { destruct (internalResource s x) as [q|] eqn:Eq.
      - assert (Hqr : q <> r).
        { intros ->. apply Hx. assert (Hin : In x (contents (view s r K) r)) by now apply R1.
          cbn in Hin. now rewrite upd_eq in Hin. }
        assert (Hin : In x (contents s q)).
        { assert (Hin : In x (contents (view s r K) q)) by now apply R1. cbn in Hin. now rewrite upd_ne in Hin. }
        pose proof (R2 q) as Hnd. pose proof (R3 q) as Hl. cbn in Hnd, Hl. rewrite upd_ne in Hnd by assumption; rewrite upd_ne, upd_ne in Hl by assumption.
        destruct (contentsRemove_gen s q x Hnd Hin Hl) as (s1 & -> & E1 & E2 & E3 & E4 & E5 & E6 & E7).
        exists s1. split; [reflexivity|]. repeat (split; [assumption|]).
        destruct (E5 r) as [-> ->]; [congruence|]. split; [reflexivity|]. split; [reflexivity|].
        intros q' Hq'. destruct (Nat.eq_dec q' q) as [->|Hne].
        + rewrite E6, E7. split; [now apply rm_NoDup|]. split; [reflexivity|]. intro. apply rm_in.
        + destruct (E5 q' Hne) as [-> ->]. specialize (R2 q'). specialize (R3 q').
          cbn in R2, R3. rewrite upd_ne in R2 by assumption; rewrite upd_ne, upd_ne in R3 by assumption. split; [assumption|]. split; [assumption|].
          intro y. split; [|tauto]. intro Hy. split; [assumption|]. intros ->.
          specialize (R1 x q'). cbn in R1. rewrite upd_ne in R1 by assumption. apply R1 in Hy. congruence.
      - exists s. repeat (split; [reflexivity || assumption|]).
        intros q Hq. specialize (R2 q). specialize (R3 q).
        cbn in R2, R3. rewrite upd_ne in R2 by assumption; rewrite upd_ne, upd_ne in R3 by assumption. split; [assumption|]. split; [assumption|].
        intro y. split; [|tauto]. intro Hy. split; [assumption|]. intros ->.
        specialize (R1 x q). cbn in R1. rewrite upd_ne in R1 by assumption. apply R1 in Hy. congruence. }
    destruct H1 as (s1 & -> & E1 & E2 & E3 & E4 & E5 & E6 & E7). cbn [obind].
    assert (G1 : GInv s1) by (apply (GInv_ext M _ _ G); intros; congruence).
    (* leaving the container *)
    assert (H2 : exists s2,
              match container s1 x with
              | Some c => let? f := eContainmentFeature M x c (containerFeatureID s1 x) in
                          if GraphModel.f_resolve M f then Some s1
                          else let? s' := removeFromContainer M s1 x in basicSetContainer M s' x None (-1)
              | None => Some s1
              end = Some s2
              /\ GInv s2 /\ contents s2 = contents s1 /\ loaded s2 = loaded s1 /\ internalResource s2 = internalResource s1
              /\ (forall y, y <> x -> container s2 y = container s1 y /\ containerFeatureID s2 y = containerFeatureID s1 y)
              /\ (forall c, container s2 x = Some c ->
                    exists cf, eContainmentFeature M x c (containerFeatureID s2 x) = Some cf /\ f_resolve cf = true)).
    { destruct (container s1 x) as [c|] eqn:Ec.
      - destruct (g_ex M s1 G1 x c Ec) as (f0 & Hf0 & Hx0).
        destruct (g_cont M s1 G1 _ _ _ Hf0 Hx0) as [_ Hcode].
        destruct (g_typed M s1 G1 _ _ _ Hx0) as [Ht _].
        destruct (containment_feature M W c f0 x Hf0 Ht) as [cf Hcf]. rewrite Hcode, Hcf. cbn [obind].
        destruct (GraphModel.f_resolve M cf) eqn:Erv.
        + exists s1. split; [reflexivity|]. split; [assumption|]. split; [reflexivity|]. split; [reflexivity|].
          split; [reflexivity|]. split; [auto|]. intros c' Hc'. rewrite Ec in Hc'. injection Hc' as <-.
          rewrite Hcode. eauto.
        + destruct (removeFromContainer_ok M W s1 s1 x c G1 eq_refl eq_refl Ec) as (f1 & Hf1 & Hx1 & Hgo).
          destruct (Hgo eq_refl) as (l' & -> & Hl'). cbn [obind]. rewrite basicSetContainer_none.
          eexists; split; [reflexivity|]. split.
          * apply (unlink_cont M W s1 _ c f1 x G1 Hf1 Hx1).
            -- intros y Hy. cbn. now rewrite !upd_ne.
            -- cbn. now rewrite upd_eq.
            -- intros a k D. change (slot (setSlot s1 c f1 l') a k = slot s1 a k). now rewrite slot_ne.
            -- change (minus x (slot s1 c f1) (slot (setSlot s1 c f1 l') c f1)). now rewrite slot_eq.
          * split; [reflexivity|]. split; [reflexivity|]. split; [reflexivity|]. split.
            -- intros y Hy. cbn. now rewrite !upd_ne.
            -- cbn. rewrite upd_eq. discriminate.
      - exists s1. split; [reflexivity|]. split; [assumption|]. split; [reflexivity|]. split; [reflexivity|].
        split; [reflexivity|]. split; [auto|]. congruence. }
    destruct H2 as (s2 & -> & G2 & F1 & F2 & F3 & F4 & F5). cbn [obind].
    eexists; split; [reflexivity|]. cbn [setResource contents loaded]. rewrite F1, F2.
    split; [assumption|]. split; [assumption|].
    split; [apply (GInv_ext M _ _ G2); reflexivity|].
    pose proof (R2 r) as HndK. cbn in HndK. rewrite upd_eq in HndK.
    split; [|split; [|split]].
    - intros y q. cbn. rewrite F1, F3, E4. unfold upd. pose proof (R1 y q) as Hy. cbn in Hy. unfold upd in Hy.
      destruct (Nat.eqb_spec q r) as [Eq|Hq]; [rewrite Eq in *|].
      + rewrite in_app_iff. cbn. rewrite Hy. destruct (Nat.eqb_spec y x) as [->|]; [tauto|]. intuition congruence.
      + destruct (E7 q Hq) as (_ & _ & ->). rewrite Hy.
        destruct (Nat.eqb_spec y x) as [->|]; intuition congruence.
    - intro q. cbn. rewrite F1. unfold upd. destruct (Nat.eqb_spec q r) as [->|Hq].
      + apply NoDup_app_iff. split; [assumption|]. split; [repeat constructor; tauto|].
        intros y Hy [<-|[]]. contradiction.
      + now apply E7.
    - intro q. cbn. rewrite F1, F2. unfold upd. destruct (Nat.eqb_spec q r) as [->|Hq]; [reflexivity|].
      now apply E7.
    - intros y c q. cbn. rewrite F3, E4. unfold upd. destruct (Nat.eqb_spec y x) as [->|Hy].
      + intros Hc _. now apply F5.
      + destruct (F4 y Hy) as [-> ->]. rewrite E1, E2. apply (R4 y c q).
  Qed.

  Lemma fold_setres_rem r Rm : forall s K, GInv s -> RInv (view s r K) -> NoDup Rm -> incl Rm K ->
    exists s' K', foldM (fun s x => eSetResource M s x None) Rm s = Some s'
      /\ contents s' r = contents s r /\ loaded s' r = loaded s r /\ GInv s' /\ RInv (view s' r K')
      /\ (forall y, In y K' <-> In y K /\ ~ In y Rm).
  Proof.
    induction Rm as [|x Rm IH]; intros s K G R Hnd Hi; cbn [foldM].
    - exists s, K. repeat (split; [reflexivity || assumption|]). intro y. cbn. tauto.
    - destruct (setres_rem s r K x G R) as (s1 & -> & E1 & E2 & G1 & R1); [apply Hi; now left|].
      cbn [obind]. inversion_clear Hnd as [|? ? Hx Hnd'].
      destruct (IH s1 (rm x K) G1 R1 Hnd') as (s' & K' & E & Ec & El & G' & R' & Hl).
      { intros y Hy. apply rm_in. split; [apply Hi; now right|]. intros ->. contradiction. }
      exists s', K'. split; [assumption|]. split; [congruence|]. split; [congruence|]. split; [assumption|].
      split; [assumption|]. intro y. rewrite Hl, rm_in. cbn. split.
      + intros [[? ?] ?]. split; [assumption|]. intros [->|]; tauto.
      + intros [? N]. split; [split; [assumption|intros ->; apply N; now left]|intro; apply N; now right].
  Qed.
  Lemma fold_setres_add r A : forall s K, GInv s -> RInv (view s r K) -> NoDup A ->
    (forall x, In x A -> ~ In x K) ->
    exists s' K', foldM (fun s x => eSetResource M s x (Some r)) A s = Some s'
      /\ contents s' r = contents s r /\ loaded s' r = loaded s r /\ GInv s' /\ RInv (view s' r K')
      /\ (forall y, In y K' <-> In y K \/ In y A).
  Proof.
    induction A as [|x A IH]; intros s K G R Hnd Hd; cbn [foldM].
    - exists s, K. repeat (split; [reflexivity || assumption|]). intro y. cbn. tauto.
    - destruct (setres_add s r K x G R) as (s1 & -> & E1 & E2 & G1 & R1); [apply Hd; now left|].
      cbn [obind]. inversion_clear Hnd as [|? ? Hx Hnd'].
      destruct (IH s1 (K ++ [x]) G1 R1 Hnd') as (s' & K' & E & Ec & El & G' & R' & Hl).
      { intros y Hy. rewrite in_app_iff. intros [Hv|[->|[]]]; [|contradiction]. eapply Hd; [right|]; eassumption. }
      exists s', K'. split; [assumption|]. split; [congruence|]. split; [congruence|]. split; [assumption|].
      split; [assumption|]. intro y. rewrite Hl, in_app_iff. cbn. tauto.
  Qed.

  Lemma contentsStages_frame r st : forall s,
    container (contentsStages s r st) = container s
    /\ containerFeatureID (contentsStages s r st) = containerFeatureID s
    /\ internalResource (contentsStages s r st) = internalResource s /\ slot (contentsStages s r st) = slot s
    /\ (forall q, q <> r -> contents (contentsStages s r st) q = contents s q
                         /\ loaded (contentsStages s r st) q = loaded s q)
    /\ contents (contentsStages s r st) r = final (contents s r) st
    /\ (loaded s r = ne (contents s r) -> stages_ok (contents s r) st ->
        loaded (contentsStages s r st) r = ne (final (contents s r) st)).
  Proof.
    induction st as [|[d cb] st IH]; intro s; cbn [contentsStages final stages_ok].
    - repeat (split; [reflexivity|]). split; [auto|]. auto.
    - destruct (IH (setLoaded (setContents s r d) r (fold_left (didContents (zlen d)) cb (loaded s r))))
        as (E1 & E2 & E3 & E4 & E5 & E6 & E7).
      cbn [container containerFeatureID internalResource slot contents loaded setLoaded setContents] in *.
      rewrite !upd_eq in *. repeat (split; [assumption|]). split; [|split; [assumption|]].
      + intros q Hq. destruct (E5 q Hq) as [-> ->]. now rewrite !upd_ne.
      + intros Hl [S1 S2]. apply E7; [|assumption]. now rewrite Hl.
  Qed.

  Lemma contentsOp_ok s r p : GInv s -> RInv s -> op_ok Nat.eqb (contents s r) p ->
    match list_effect (contents s r) p with
    | None => contentsOp M s r p = None
    | Some (st, _, _) => exists s', contentsOp M s r p = Some s' /\ GInv s' /\ RInv s'
                            /\ contents s' r = final (contents s r) st
    end.
  Proof.
    intros G R Hok. unfold contentsOp.
    destruct (list_effect (contents s r) p) as [[[st Rm] A]|] eqn:E; [|reflexivity]. cbn [obind].
    pose proof R as (R1 & R2 & R3 & R4).
    apply list_effect_good in E as [E S]; [|apply R2|assumption].
    destruct (effect_elements _ _ _ _ _ (R2 r) E) as (N1 & N2 & Hel).
    destruct E as (_ & Hi & HA & Hd & _).
    destruct (contentsStages_frame r st s) as (E1 & E2 & E3 & E4 & E5 & E6 & E7).
    specialize (E7 (R3 r) S).
    remember (contentsStages s r st) as s0.
    assert (G0 : GInv s0) by (apply (GInv_ext M _ _ G); intros; congruence).
    assert (R0 : RInv (view s0 r (contents s r))).
    { assert (Ec : forall q, contents (view s0 r (contents s r)) q = contents s q).
      { intro q. cbn. unfold upd. destruct (Nat.eqb_spec q r) as [->|Hq]; [reflexivity|]. now apply E5. }
      apply (RInv_ext s); auto; try (intros; cbn; congruence).
      - intros q y. now rewrite Ec.
      - intro q. rewrite Ec. apply R2.
      - intro q. rewrite Ec. cbn. unfold upd. destruct (Nat.eqb_spec q r) as [->|Hq]; [reflexivity|].
        destruct (E5 q Hq) as [_ ->]. apply R3. }
    destruct (fold_setres_rem r Rm s0 (contents s r) G0 R0 N2 Hi) as (s1 & K1 & -> & Ec1 & El1 & G1 & RV1 & Hl1).
    cbn [obind].
    destruct (fold_setres_add r A s1 K1 G1 RV1 HA) as (s2 & K2 & -> & Ec2 & El2 & G2 & RV2 & Hl2).
    { intros x Hx Hv. apply Hl1 in Hv as [Hv _]. exact (Hd x Hx Hv). }
    exists s2. split; [reflexivity|]. split; [assumption|].
    assert (Ec : contents s2 r = final (contents s r) st) by congruence.
    split; [|assumption]. pose proof RV2 as (V1 & V2 & V3 & V4).
    apply (RInv_ext (view s2 r K2)); auto.
    - intros q y. cbn. unfold upd. destruct (Nat.eqb_spec q r) as [Eq|]; [rewrite ?Eq in *|reflexivity].
      rewrite Ec, Hel, Hl2, Hl1. reflexivity.
    - intro q. specialize (V2 q). cbn in V2. unfold upd in V2.
      destruct (Nat.eqb_spec q r) as [Eq|]; [rewrite ?Eq in *; now rewrite Ec|assumption].
    - intro q. specialize (V3 q). cbn in V3. unfold upd in V3.
      destruct (Nat.eqb_spec q r) as [Eq|]; [rewrite ?Eq in *; rewrite Ec; congruence|assumption].
  Qed.

  (** ** every legal call *)
  Lemma accessed_own o f : In f (features o) -> accessed M o f = Some f.
  Proof.
    intro H. unfold accessed. fold (features o).
    assert (existsb (Nat.eqb f) (features o) = true) as ->.
    { apply existsb_exists. exists f. split; [assumption|apply Nat.eqb_refl]. }
    now apply (feat M W).
  Qed.

  Lemma list_effect_total data p : op_ok Nat.eqb data p ->
    match list_effect data p, spec_step Nat.eqb true data p with
    | Some (st, _, _), Some (d, _) => final data st = d
    | None, None => True
    | _, _ => False
    end.
  Proof.
    intro Hok. pose proof (effect_nstep data p) as H1.
    pose proof (nstep_step Nat.eqb 0%nat neqb_ok true data p) as H2.
    pose proof (step_agrees Nat.eqb 0%nat neqb_ok true data p (fun _ => Hok)) as H3.
    destruct (list_effect data p) as [[[st R] A]|]; destruct (nstep Nat.eqb 0%nat true data (L p)) as [[d ns] r|];
      destruct (step Nat.eqb 0%nat true data p) as [[d' cb] r'|]; cbn in *;
      destruct (spec_step Nat.eqb true data p) as [[d'' r'']|]; try contradiction; auto.
    destruct H2 as [-> _]. destruct H3 as [-> _]. assumption.
  Qed.

  Lemma gstep_ok s p : GInv s -> RInv s -> legal M s p ->
    (gstep M s p = None /\ index_error s p)
    \/ (exists s', gstep M s p = Some s' /\ ~ index_error s p /\ GInv s' /\ RInv s').
  Proof.
    intros G R L. destruct p as [o f v|o f|o f p|r p|r]; cbn [gstep index_error].
    - right. destruct L as (Hm & Hf & Ht). rewrite accessed_own by assumption. cbn [obind].
      destruct (isContainer f) eqn:Ec.
      { destruct (eSet_container s o f v G R Hf Ec Ht) as (s' & E & G' & R' & _). eauto 6. }
      destruct (isBidirectional M f || f_cont f) eqn:Eb.
      { destruct (eSet_inverse s o f v G R Hf Hm Ec Eb Ht) as (s' & E & G' & R' & _). eauto 6. }
      apply orb_false_iff in Eb as [E1 E2]. unfold isBidirectional in E1.
      destruct (GraphModel.f_opp M f) eqn:Eo; [discriminate|].
      destruct (plain_set s o f (to_list v) G R Eo E2 Hf) as [G' R'];
        [destruct v; cbn; repeat constructor; cbn; tauto|destruct v; cbn; lia|].
      eexists. split; [|split; [tauto|split; eassumption]]. unfold eSet. rewrite Ec.
      unfold isBidirectional. rewrite Eo, E2. reflexivity.
    - right. destruct L as (Hf & Hm). rewrite accessed_own by assumption. cbn [obind].
      destruct (isContainer f) eqn:Ec.
      { destruct (eUnset_container s o f G R Hf Ec) as (s' & E & G' & R' & _). eauto 6. }
      destruct (isBidirectional M f || f_cont f) eqn:Eb.
      { destruct (GraphModel.f_many M f) eqn:Em.
        - destruct (Hm eq_refl) as [H1 H2]. unfold isBidirectional in Eb. rewrite H1, H2 in Eb. discriminate.
        - destruct (eUnset_inverse s o f G R Hf Em Ec Eb) as (s' & E & G' & R' & _). eauto 6. }
      pose proof Eb as Eb'. apply orb_false_iff in Eb' as [E1 E2]. unfold isBidirectional in E1.
      destruct (GraphModel.f_opp M f) eqn:Eo; [discriminate|].
      destruct (plain_set s o f [] G R Eo E2 Hf) as [G' R']; [constructor|cbn; lia|].
      eexists. split; [|split; [tauto|split; eassumption]]. unfold eUnset. now rewrite Ec, Eb.
    - pose proof L as (Hm & Hf & Hok & _). rewrite accessed_own by assumption. cbn [obind].
      pose proof (listOp_ok s o f p G R L) as H. pose proof (list_effect_total (slot s o f) p Hok) as T.
      destruct (list_effect (slot s o f) p) as [[[st Rm] A]|];
        destruct (spec_step Nat.eqb true (slot s o f) p) as [[d r]|]; try contradiction.
      + right. destruct H as (s' & E & G' & R' & _). exists s'. split; [assumption|]. split; [discriminate|auto].
      + left. auto.
    - cbn in L. pose proof (contentsOp_ok s r p G R L) as H. pose proof (list_effect_total (contents s r) p L) as T.
      destruct (list_effect (contents s r) p) as [[[st Rm] A]|];
        destruct (spec_step Nat.eqb true (contents s r) p) as [[d q]|]; try contradiction.
      + right. destruct H as (s' & E & G' & R' & _). exists s'. split; [assumption|]. split; [discriminate|auto].
      + left. auto.
    - destruct L.
  Qed.

  Lemma init_ok : GInv init /\ RInv init.
  Proof.
    split.
    - constructor; cbn; try tauto; try discriminate; intros; try constructor; try lia.
    - split; [|split; [|split]]; cbn; try tauto; try discriminate; intros; try constructor; auto; try discriminate; try tauto.
  Qed.

  Lemma reachable_ok s : reachable M s -> GInv s /\ RInv s.
  Proof.
    induction 1 as [|s p s' _ [G R] L E]; [exact init_ok|].
    destruct (gstep_ok s p G R L) as [[E' _]|(s'' & E' & _ & G' & R')]; [congruence|].
    assert (s'' = s') by congruence. subst. auto.
  Qed.

  (** ** reading the invariant *)
  Lemma eGet_own s o f : In f (features o) ->
    eGet M s o f = Some (if isContainer f then
            if containerFeatureID s o =? f_id f then to_list (container s o) else [] else slot s o f).
  Proof.
    intro H. unfold eGet. rewrite accessed_own by assumption. cbn [obind].
    fold (isContainer f). fold (getFeatureID o f). apply (feat M W) in H as (_ & -> & _). reflexivity.
  Qed.
  Lemma eGet_inv s o f l : eGet M s o f = Some l -> In f (features o).
  Proof.
    unfold eGet, accessed. destruct (existsb (Nat.eqb f) (GraphModel.features M o)) eqn:E; [|discriminate].
    intros _. apply existsb_exists in E as (g & Hg & E). apply Nat.eqb_eq in E. now subst.
  Qed.
  Lemma holds_slot s o f x : isContainer f = false -> GInv s -> (holds M s o f x <-> In x (slot s o f)).
  Proof.
    intros Hc G. unfold holds. split.
    - intros (l & E & Hx). pose proof (eGet_inv _ _ _ _ E) as Hf. rewrite eGet_own, Hc in E by assumption.
      injection E as <-. assumption.
    - intro Hx. destruct (g_typed M s G _ _ _ Hx) as [[Hf _] _]. rewrite eGet_own, Hc by assumption. eauto.
  Qed.
  Lemma holds_container s o f c : isContainer f = true -> In f (features o) ->
    (holds M s o f c <-> container s o = Some c /\ containerFeatureID s o = f_id f).
  Proof.
    intros Hc Hf. unfold holds. rewrite eGet_own, Hc by assumption.
    destruct (Z.eqb_spec (containerFeatureID s o) (f_id f)) as [E|E].
    - split.
      + intros (l & El & Hx). injection El as <-. destruct (container s o); cbn in Hx; [|destruct Hx].
        destruct Hx as [->|[]]. auto.
      + intros [-> _]. cbn. eauto using in_eq.
    - split; [|tauto]. intros (l & El & Hx). injection El as <-. destruct Hx.
  Qed.

  Lemma containing_of_slot s o f x : GInv s -> f_cont f = true -> In x (slot s o f) ->
    container s x = Some o /\ eContainingFeature M s x = Some f.
  Proof.
    intros G Hf Hx. destruct (g_cont M s G _ _ _ Hf Hx) as [C1 C2]. split; [assumption|].
    destruct (g_typed M s G _ _ _ Hx) as [[T1 T2] _].
    unfold eContainingFeature. rewrite C1, C2. unfold GraphInv.code, BASE.
    destruct (f_opp f) as [g|] eqn:Eg.
    - specialize (T2 _ eq_refl). apply (feat M W) in T2 as (Hat & _ & H0).
      destruct (Z.leb_spec (f_id g) (-1)); [lia|]. fold (feature_at x (f_id g)). rewrite Hat. cbn [obind].
      now apply (wf_opp M W).
    - apply (feat M W) in T1 as (Hat & _ & H0).
      destruct (Z.leb_spec (-1 - f_id f) (-1)); [|lia].
      replace (-1 - (-1 - f_id f)) with (f_id f) by lia. exact Hat.
  Qed.

  Lemma agrees_of_inv s : GInv s -> containment_agrees M s.
  Proof.
    intro G. split; [|split].
    - intros x c f Hf. rewrite (holds_slot s c f x (cont_not_container M W f Hf) G). split.
      + intro Hx. now apply containing_of_slot.
      + intros [C E]. destruct (g_ex M s G x c C) as (k & Hk & Hx).
        destruct (containing_of_slot s c k x G Hk Hx) as [_ E']. assert (k = f) by congruence. now subst.
    - intros x c C. destruct (g_ex M s G x c C) as (k & Hk & Hx). exists k. split; [assumption|].
      now apply containing_of_slot.
    - intros o f l E. pose proof (eGet_inv _ _ _ _ E) as Hf. rewrite eGet_own in E by assumption.
      injection E as <-. destruct (isContainer f); [|apply (g_nodup M s G)].
      destruct (containerFeatureID s o =? f_id f); [|constructor].
      destruct (container s o); cbn; repeat constructor; cbn; tauto.
  Qed.

  Lemma container_agrees s a r b q : GInv s -> f_opp r = Some q -> f_cont r = true ->
    In r (features a) -> In q (features b) -> (holds M s a r b <-> holds M s b q a).
  Proof.
    intros G E Hr Ha Hb. destruct (opp_container M W r q Hr E) as (Hq & _ & _ & E').
    rewrite (holds_slot s a r b (cont_not_container M W r Hr) G), (holds_container s b q a Hq Hb). split.
    - intro Hx. destruct (g_cont M s G _ _ _ Hr Hx) as [C1 C2]. unfold GraphInv.code in C2. rewrite E in C2. auto.
    - intros [C1 C2]. destruct (g_ex M s G b a C1) as (k & Hk & Hx).
      destruct (g_cont M s G _ _ _ Hk Hx) as [_ C2']. destruct (g_typed M s G _ _ _ Hx) as [T _].
      assert (k = r); [|now subst]. apply (code_inj M W a k r b); auto.
      + split; [assumption|]. intros g Hg. rewrite E in Hg. injection Hg as <-. assumption.
      + unfold GraphInv.code at 2. rewrite E. congruence.
  Qed.

  Lemma opposites_of_inv s : GInv s -> opposites_agree M s.
  Proof.
    intros G r q a b E Ha Hb. destruct (wf_opp M W r q E) as [E' _].
    destruct (f_cont r) eqn:Hr; [now apply container_agrees|].
    destruct (f_cont q) eqn:Hq; [symmetry; now apply container_agrees|].
    assert (C1 : isContainer r = false) by (unfold GraphModel.isContainer; now rewrite E).
    assert (C2 : isContainer q = false) by (unfold GraphModel.isContainer; now rewrite E').
    rewrite (holds_slot s a r b C1 G), (holds_slot s b q a C2 G).
    split; intro H; eapply (g_sym M s G); eauto.
  Qed.

  (** a contained root object is held through a proxy-resolving reference *)
  Lemma resources_of_inv s : RInv s -> resources_agree s.
  Proof. intros (R1 & R2 & _). split; assumption. Qed.
End Steps.
