From Coq Require Import Permutation.
From Verif Require Import Base ListModel ListSpec ListProofs NotifyModel NotifyProofs CallbackProofs
  GraphModel GraphSpec GraphProofs GraphInv GraphSteps GraphAcyclic AdapterModel AdapterErase AdapterSpec AdapterWalk AdapterDispatch AdapterSummary AdapterEvents AdapterOps AdapterCalls AdapterMoves.

Section Rest.
  Context (M : metamodel) (W : wf_metamodel M) (A0 : flags) (req : notifier -> bool).
  Context (Hreq : forall n, A0 n = true -> req n = true).
  Notation f_many := (f_many M). Notation f_cont := (f_cont M). Notation f_opp := (f_opp M).
  Notation f_id := (f_id M). Notation f_resolve := (f_resolve M). Notation features := (features M).
  Notation isContainer := (isContainer M). Notation feature_at := (feature_at M).
  Notation getFeatureID := (getFeatureID M). Notation link_typed := (link_typed M).
  Notation GInv := (GInv M). Notation RInv := (RInv M). Notation code := (code M).
  Notation leftC := (leftC M req). Notation leftR := (leftR req).
  Notation accounted := (accounted A0). Notation own := (own req).

  (** ** container references *)
  Lemma eUnsetE_container s o f s1 es : GInv s -> RInv s -> isContainer f = true ->
    eUnsetE M req s o f = Some (s1, es) -> accounted s s1 es.
  Proof.
    intros G R Hc. unfold eUnsetE. rewrite Hc. destruct (container s o) as [c|] eqn:Ec.
    2: { intros [= <- <-]. now apply accounted_neutral. }
    destruct (removeFromContainerE_leaves M W req s s o G eq_refl eq_refl) as (s2 & e1 & -> & C1 & F1 & R1 & _ & L); [auto|].
    cbn [bindE]. rewrite basicSetContainerE_none. intros [= <- <-]. rewrite app_nil_r.
    apply (leave_summary M A0 req Hreq _ _ o); [assumption| | |]; cbn; rewrite ?C1, ?R1.
    - apply upd_eq.
    - intros y N. now apply upd_ne.
    - reflexivity.
  Qed.

  Lemma eSetE_container s o f v s1 es : GInv s -> RInv s -> legal M s (OSet o f v) -> isContainer f = true ->
    eSetE M req s o f v = Some (s1, es) -> accounted s s1 es.
  Proof.
    intros G R (Hm & Hf & Ht) Hc. unfold eSetE. rewrite Hc. cbv zeta.
    destruct (container_pair M W f Hc) as (f' & Eg & Eg' & Hf' & Hmf & Hnc' & Hcf).
    pose proof Hf as Hfo. apply (feat M W) in Hfo as (Hat & -> & H0).
    match goal with |- context [if ?b then _ else _] => destruct b eqn:Eg0 end.
    2: { intros [= <- <-]. now apply accounted_neutral. }
    assert (Hd : exists s2 e1, whenE (container s o) s (fun _ => removeFromContainerE M req s o) = Some (s2, e1)
       /\ container s2 = container s /\ internalResource s2 = internalResource s /\ contents s2 = contents s /\ leftC s o e1
       /\ (forall a k, ~ In o (slot s a k) -> slot s2 a k = slot s a k)).
    { destruct (detach M W s o G R) as (s2 & Ed & _ & _ & _ & _ & _ & Hs2 & _).
      destruct (removeFromContainerE_leaves M W req s s o G eq_refl eq_refl) as (s2' & e1 & E & C1 & F1 & R1 & K1 & L); [auto|].
      assert (E' : whenE (container s o) s (fun _ => removeFromContainerE M req s o) = Some (s2', e1)).
      { destruct (container s o) eqn:Ec; cbn [whenE]; [assumption|].
        unfold removeFromContainerE in E. rewrite Ec in E. cbv zeta in E. exact E. }
      exists s2', e1. split; [exact E'|]. split; [assumption|]. split; [assumption|]. split; [assumption|]. split; [assumption|].
      assert (s2' = s2).
      { pose proof (when_erase (container s o) s (fun _ => removeFromContainerE M req s o) (fun _ => removeFromContainer M s o)
                      (fun _ => removeFromContainer_erase M req s o)) as H. rewrite E', Ed in H. cbn in H. congruence. }
      subst s2'. assumption. }
    destruct Hd as (s2 & e1 & -> & C1 & R1 & K1 & L & Hs2). cbn [bindE].
    destruct v as [c|]; cbn [whenE].
    - rewrite Eg. destruct (Ht c eq_refl) as [_ T2]. specialize (T2 _ Eg).
      pose proof T2 as T2'. apply (feat M W) in T2' as (Hatc & -> & H0c).
      assert (Hno : ~ In o (slot s c f')).
      { intro Hin. destruct (g_cont M s G c f' o Hf' Hin) as [D1 D2]. unfold GraphInv.code in D2.
        rewrite Eg' in D2. rewrite D1, D2 in Eg0. cbn in Eg0. rewrite Nat.eqb_refl in Eg0. cbn in Eg0.
        destruct (Z.eqb_spec (f_id f) (f_id f)); [discriminate|lia]. }
      pose proof (Hs2 c f' Hno) as Es2.
      assert (Htl : link_typed c f' o).
      { split; [assumption|]. intros g Hg. rewrite Eg' in Hg. injection Hg as <-. assumption. }
      assert (Hcode : code f' = f_id f) by (unfold GraphInv.code; now rewrite Eg').
      destruct (containment_feature M W c f' o Hf' Htl) as [cf Hcf']. rewrite Hcode in Hcf'.
      (* the new container gains o and loses what it held *)
      assert (Hin : exists s3 m Rm, inverseAddE M req s2 c o (f_id f') = Some (s3, m)
         /\ internalResource s3 = internalResource s /\ contents s3 = contents s
         /\ (forall y, In y Rm -> In y (slot s c f') /\ container s3 y = None) /\ (forall y, ~ In y Rm -> container s3 y = container s y)
         /\ own (NObj c) f' Rm [o] m).
      { unfold inverseAddE. destruct (Z.geb_spec (f_id f') 0); [|lia]. unfold basicInverseAddE. rewrite Hatc, Hnc'.
        destruct (GraphModel.f_many M f') eqn:Em.
        - cbn [doAdd obind emit]. destruct (add_notif (slot s2 c f') o) as [i ->]. eexists _, _, []. split; [reflexivity|].
          cbn. split; [assumption|]. split; [assumption|]. split; [intros y []|]. split; [now rewrite C1|].
          unfold objEvents. rewrite Hf'. cbn. destruct (req (NObj c)) eqn:Eq; [right; eexists; split; [reflexivity|split; reflexivity]|left; auto].
        - rewrite Es2. pose proof (g_single M s G c f' Em) as Hsi.
          destruct (slot s c f') as [|y [|z l]] eqn:Esl; [| |cbn in Hsi; lia].
          + unfold just. rewrite bind_nil. eexists _, _, []. split; [reflexivity|]. cbn. split; [assumption|]. split; [assumption|]. split; [intros y []|].
            split; [now rewrite C1|]. unfold objEvents. rewrite Hf'. cbn.
            destruct (req (NObj c)) eqn:Eq; [right; eexists; split; [reflexivity|split; reflexivity]|left; auto].
          + rewrite Hf'. pose proof T2 as T3. apply (feat M W) in T3 as (_ & -> & _).
            unfold inverseRemoveE. destruct (Z.geb_spec (BASE - f_id f') 0); [unfold BASE in *; lia|].
            rewrite basicSetContainerE_none, bind_nil. eexists _, _, [y]. split; [reflexivity|]. cbn.
            split; [assumption|]. split; [assumption|]. split.
            { intros z [<-|[]]. rewrite upd_eq. auto. }
            split; [intros z Hz; rewrite upd_ne by (intros ->; apply Hz; now left); now rewrite C1|].
            unfold objEvents. rewrite Hf'. cbn.
            destruct (req (NObj c)) eqn:Eq; [right; eexists; split; [reflexivity|split; reflexivity]|left; auto]. }
      destruct Hin as (s3 & m & Rm & -> & R3 & K3 & HR & HnR & Hown). cbn [bindE].
      destruct (basicSetContainerE_leaves M req s3 o c (f_id f) cf) as (s4 & e3 & E4 & C4 & _ & D4); [|assumption|].
      { rewrite R3, K3. intros r Hr. destruct R as (R2' & R3' & _). split; [now apply R2'|apply R3']. }
      rewrite E4. intros [= <- <-].
      assert (HoR : ~ In o Rm) by (intro Ho; apply HR in Ho as [Ho _]; contradiction).
      assert (Dc : forall y, In y [o] -> container s4 y = Some c). { intros y [<-|[]]. rewrite C4. apply upd_eq. }
      refine (eq_ind _ (accounted s _) (cont_summary M A0 req Hreq s s4 c f' o Rm [o] e1 e3 m false Dc _ _ _ _ _ _ _ Hown) _ _).
      + intros y Hy. destruct (HR y Hy) as [Hy1 Hy2]. split; [now apply (g_cont M s G c f' y Hf')|].
        rewrite C4, upd_ne; [assumption|]. intros ->. contradiction.
      + intros y Hy Hy'. rewrite C4, upd_ne; [auto|]. intros ->. apply Hy. now left.
      + intros y [<-|[]] N. congruence.
      + intros y N. destruct D4 as [[_ ->]|[_ ->]]; rewrite ?upd_ne by assumption; now rewrite R3.
      + destruct D4 as [[? ->]|[L2 ->]]; [left; now rewrite R3|right]. split; [|apply upd_eq]. apply (leftR_ext req s3); [now rewrite R3|assumption].
      + intros c0 f0 nt ->. destruct L as [[? _]|(c' & f'' & nt' & _ & _ & Hin & [= -> -> _] & _)]; [discriminate|].
        destruct (slot_dec c' f'' c f') as [[-> ->]|D]; [contradiction|lia].
      + left. split; [now left|assumption].
      + cbn. reflexivity.
    - unfold just. rewrite bind_nil, basicSetContainerE_none. intros [= <- <-]. rewrite app_nil_r.
      apply (leave_summary M A0 req Hreq _ _ o); [assumption| | |]; cbn; rewrite ?C1, ?R1.
      + apply upd_eq.
      + intros y N. now apply upd_ne.
      + reflexivity.
  Qed.

  (** ** other references *)
  Definition quiet (s s' : state) (es : list event) : Prop :=
    es = [] /\ container s' = container s /\ internalResource s' = internalResource s.
  Lemma quiet_nil s : quiet s s [].
  Proof. repeat split. Qed.
  Lemma quiet_accounted s s' es : quiet s s' es -> accounted s s' es.
  Proof. intros (-> & E1 & E2). apply accounted_neutral; intro; congruence. Qed.
  Lemma quiet_bind m k s s' es : bindE m k = Some (s', es) -> (forall s1 e1, m = Some (s1, e1) -> quiet s s1 e1) ->
    (forall s1 e1, m = Some (s1, e1) -> forall e2, k s1 = Some (s', e2) -> quiet s1 s' e2) -> quiet s s' es.
  Proof.
    unfold bindE. destruct m as [[s1 e1]|]; [|discriminate]. destruct (k s1) as [[s2 e2]|] eqn:Ek; [|discriminate]. intros [= <- <-] H1 H2.
    destruct (H1 s1 e1 eq_refl) as (-> & C1 & R1). destruct (H2 s1 [] eq_refl e2 Ek) as (-> & C2 & R2).
    split; [reflexivity|]. split; congruence.
  Qed.

  Lemma inverseRemoveE_quiet s x g o s' es : In g (features x) -> f_cont g = false -> isContainer g = false ->
    inverseRemoveE M req s x o (f_id g) = Some (s', es) -> quiet s s' es.
  Proof.
    intros Hg Hc Hn. apply (feat M W) in Hg as (Hat & _ & H0). unfold inverseRemoveE. destruct (Z.geb_spec (f_id g) 0); [|lia].
    unfold basicInverseRemoveE, objEvents. rewrite Hat, Hn, Hc. cbn [andb]. destruct (f_many g).
    - destruct (removeWithNotification (slot s x g) o) as [[l ?]|]; cbn [obind emit]; [|discriminate]. intros [= <- <-]. repeat split.
    - intros [= <- <-]. repeat split.
  Qed.
  Lemma inverseAddE_quiet s x g o f s' es : In g (features x) -> f_cont g = false -> isContainer g = false -> f_opp g = Some f ->
    f_cont f = false -> isContainer f = false -> (forall y, In y (slot s x g) -> In f (features y)) ->
    inverseAddE M req s x o (f_id g) = Some (s', es) -> quiet s s' es.
  Proof.
    intros Hg Hc Hn Ho Hcf Hnf Ht. apply (feat M W) in Hg as (Hat & _ & H0). unfold inverseAddE. destruct (Z.geb_spec (f_id g) 0); [|lia].
    unfold basicInverseAddE, objEvents. rewrite Hat, Hn, Hc, Ho. cbn [andb]. destruct (f_many g).
    - cbn [doAdd obind emit]. intros [= <- <-]. repeat split.
    - intro E. eapply quiet_bind; [exact E| |].
      + intros s1 e1. destruct (slot s x g) as [|y l]; [intros [= <- <-]; apply quiet_nil|].
        pose proof (Ht y (or_introl eq_refl)) as Hy. pose proof Hy as Hy'. apply (feat M W) in Hy' as (_ & -> & _).
        now apply inverseRemoveE_quiet.
      + intros s1 e1 _ e2 [= <- <-]. repeat split.
  Qed.
  Lemma listInverseRemoveE_quiet s o f x V s' es : GInv (setSlot s o f V) -> In x V -> f_cont f = false ->
    listInverseRemoveE M req s o f x = Some (s', es) -> quiet s s' es.
  Proof.
    intros G Hx Hf. assert (HxV : In x (slot (setSlot s o f V) o f)) by now rewrite slot_eq.
    destruct (g_typed M _ G _ _ _ HxV) as [[T1 T2] Hnc]. unfold listInverseRemoveE.
    destruct (GraphModel.f_opp M f) as [g|] eqn:Eg.
    - destruct (noncont_pair M W f g Eg Hf Hnc) as (Hgf & Hgc & Hcg & Hne). apply inverseRemoveE_quiet; auto.
    - rewrite Hf. intros [= <- <-]. apply quiet_nil.
  Qed.
  Lemma listInverseAddE_quiet s o f x V s' es : GInv (setSlot s o f V) -> link_typed o f x -> f_cont f = false -> isContainer f = false ->
    listInverseAddE M req s o f x = Some (s', es) -> quiet s s' es.
  Proof.
    intros G Ht Hf Hnc. unfold listInverseAddE. destruct (GraphModel.f_opp M f) as [g|] eqn:Eg.
    - destruct (noncont_pair M W f g Eg Hf Hnc) as (Hgf & Hgc & Hcg & Hne). destruct Ht as [_ T2]. specialize (T2 g Eg).
      apply (inverseAddE_quiet s x g o f); auto. intros y Hy.
      assert (Hy' : In y (slot (setSlot s o f V) x g)) by (rewrite slot_ne by auto; assumption).
      destruct (g_typed M _ G _ _ _ Hy') as [[_ T3] _]. now apply T3.
    - rewrite Hf. intros [= <- <-]. apply quiet_nil.
  Qed.

  Lemma fold_rem_quiet o f R : f_cont f = false -> forall s V s' es, GInv (setSlot s o f V) -> RInv s -> NoDup R -> incl R V ->
    foldE (fun s x => listInverseRemoveE M req s o f x) R s = Some (s', es) -> quiet s s' es.
  Proof.
    intro Hf. induction R as [|x R IH]; intros s V s' es G Rv Hnd Hi; cbn [foldE].
    { intros [= <- <-]. apply quiet_nil. }
    inversion Hnd as [|? ? Hx Hnd']; subst. assert (HxV : In x V) by (apply Hi; now left). intro E.
    eapply quiet_bind; [exact E| |].
    - intros s1 e1. now apply (listInverseRemoveE_quiet s o f x V).
    - intros s1 e1 E1 e2. destruct (rem_ok M W s o f x V G Rv HxV) as (s1' & E1' & _ & G1 & R1).
      assert (s1' = s1). { pose proof (listInverseRemove_erase M req s o f x) as H. rewrite E1, E1' in H. cbn in H. congruence. }
      subst s1'. apply (IH s1 (rm x V)); auto. intros y Hy. apply rm_in. split; [apply Hi; now right|]. intros ->. contradiction.
  Qed.
  Lemma fold_add_quiet o f A : f_cont f = false -> f_many f = true -> forall s V s' es, GInv (setSlot s o f V) -> RInv s -> NoDup A ->
    (forall x, In x A -> ~ In x V) -> (forall x, In x A -> link_typed o f x) ->
    foldE (fun s x => listInverseAddE M req s o f x) A s = Some (s', es) -> quiet s s' es.
  Proof.
    intros Hf Hm. induction A as [|x A IH]; intros s V s' es G Rv Hnd HV Ht; cbn [foldE].
    { intros [= <- <-]. apply quiet_nil. }
    inversion Hnd as [|? ? Hx Hnd']; subst. pose proof (HV x (or_introl eq_refl)) as HxV. intro E.
    assert (Htx : link_typed o f x) by (apply Ht; now left). pose proof (many_not_container M W f Hm) as Hnc.
    eapply quiet_bind; [exact E| |].
    - intros s1 e1. now apply (listInverseAddE_quiet s o f x V).
    - intros s1 e1 E1 e2. destruct (add_ok M W s o f x V G Rv HxV Htx Hnc) as (s1' & E1' & _ & G1 & R1); [congruence|].
      assert (s1' = s1). { pose proof (listInverseAdd_erase M req s o f x) as H. rewrite E1, E1' in H. cbn in H. congruence. }
      subst s1'. apply (IH s1 (V ++ [x])); auto.
      + intros y Hy Hin. apply in_app_or in Hin as [Hin|[<-|[]]]; [|contradiction]. apply (HV y); [now right|assumption].
      + intros; apply Ht; now right.
  Qed.

  Lemma listOpE_quiet s o f p s1 es : GInv s -> RInv s -> legal M s (OList o f p) -> f_cont f = false ->
    listOpE M req s o f p = Some (s1, es) -> quiet s s1 es.
  Proof.
    intros G R (Hm & Hf & Hok & Hargs) Hc. unfold listOpE.
    destruct (list_effect (slot s o f) p) as [[[st Rm] Ad]|] eqn:Ele; [|discriminate]. cbv zeta.
    pose proof (g_nodup M s G o f) as Hnd.
    apply list_effect_good in Ele as [Eg _]; [|assumption|assumption].
    destruct (effect_elements _ _ _ _ _ Hnd Eg) as (N1 & N2 & Hel).
    destruct Eg as (_ & Hi & HA & Hd & Harg).
    assert (G0 : GInv (setSlot (setSlot s o f (final (slot s o f) st)) o f (slot s o f))) by now apply GInv_view.
    intro E. assert (Q : quiet (setSlot s o f (final (slot s o f) st)) s1 es); [|destruct Q as (-> & ? & ?); repeat split; assumption].
    eapply quiet_bind; [exact E| |].
    - intros s2 e2. apply (fold_rem_quiet o f Rm Hc _ (slot s o f)); auto.
    - intros s2 e2 E2 e3 E3.
      destruct (fold_rem M W o f Rm _ (slot s o f) G0 R N2 Hi) as (s2' & V & E2' & _ & G2 & R2 & HV).
      assert (s2' = s2).
      { pose proof (fold_erase (fun s x => listInverseRemoveE M req s o f x) (fun s x => listInverseRemove M s o f x) Rm
                      (fun s x => listInverseRemove_erase M req s o f x) (setSlot s o f (final (slot s o f) st))) as H. rewrite E2, E2' in H. cbn in H. congruence. }
      subst s2'. eapply quiet_bind; [exact E3| |].
      + intros s3 e4. apply (fold_add_quiet o f Ad Hc Hm s2 V); auto.
        * intros x Hx Hv. apply HV in Hv as [Hv _]. exact (Hd x Hx Hv).
        * intros x Hx. destruct (Harg x Hx) as [Ha|Ha]; [now apply Hargs|]. now apply (g_typed M s G).
      + intros s3 e4 _ e5 [= <- <-]. unfold objEvents. rewrite Hc. cbn. apply quiet_nil.
  Qed.
  Lemma eSetE_quiet s o f v s1 es : GInv s -> RInv s -> legal M s (OSet o f v) -> f_cont f = false -> isContainer f = false ->
    eSetE M req s o f v = Some (s1, es) -> quiet s s1 es.
  Proof.
    intros G R (Hm & Hf & Ht) Hc Hnc. unfold eSetE. rewrite Hnc, Hc, orb_false_r. cbv zeta.
    unfold isBidirectional. destruct (GraphModel.f_opp M f) as [g|] eqn:Eg; [|intros [= <- <-]; repeat split].
    destruct (noncont_pair M W f g Eg Hc Hnc) as (Hgf & Hgc & Hcg & Hne).
    pose proof (g_single M s G o f Hm) as Hsi.
    assert (Hold : slot s o f = to_list (hd_error (slot s o f))).
    { destruct (slot s o f) as [|y [|z l]]; cbn in *; [reflexivity|reflexivity|lia]. }
    destruct (some_eqb (hd_error (slot s o f)) v); [intros [= <- <-]; apply quiet_nil|].
    intro E. eapply quiet_bind; [exact E| |].
    2: { intros s2 e2 _ e3 [= <- <-]. unfold objEvents. rewrite Hc. cbn. repeat split. }
    intros s2 e2 E2. eapply quiet_bind; [exact E2| |].
    - intros s3 e3. destruct (hd_error (slot s o f)) as [y|]; cbn [whenE]; [|intros [= <- <-]; apply quiet_nil].
      assert (Hy : In y (slot s o f)) by (rewrite Hold; now left).
      destruct (g_typed M s G _ _ _ Hy) as [[_ T2] _]. specialize (T2 _ Eg).
      pose proof T2 as T3. apply (feat M W) in T3 as (_ & -> & _). now apply inverseRemoveE_quiet.
    - intros s3 e3 E3 e4. destruct v as [x|]; cbn [whenE]; [|intros [= <- <-]; apply quiet_nil].
      destruct (Ht x eq_refl) as [T1 T2]. specialize (T2 _ Eg).
      pose proof T2 as T3. apply (feat M W) in T3 as (_ & -> & _). apply (inverseAddE_quiet s3 x g o f); auto.
      intros y Hy. assert (Hyx : In y (slot s x g)).
      { destruct (hd_error (slot s o f)) as [z|] eqn:Ez; cbn [whenE] in E3; [|injection E3 as -> _; assumption].
        assert (Hz : In z (slot s o f)) by (rewrite Hold; now left).
        destruct (g_typed M s G _ _ _ Hz) as [[_ T4] _]. specialize (T4 _ Eg).
        apply (feat M W) in T4 as T5. destruct T5 as (_ & E5 & _). rewrite E5 in E3.
        assert (Hin : In o (slot s z g)) by (eapply (g_sym M s G); eauto).
        destruct (inverseRemove_slot M W s z g o T4 Hcg (g_nodup M s G z g) (g_single M s G z g) Hin) as (l' & E6 & Hmi).
        pose proof (inverseRemove_erase M req s z o (f_id g)) as H. rewrite E3, E6 in H. cbn in H. injection H as ->.
        destruct (slot_dec x g z g) as [[-> _]|D].
        - rewrite slot_eq in Hy. now apply Hmi in Hy.
        - now rewrite slot_ne in Hy. }
      destruct (g_typed M s G _ _ _ Hyx) as [[_ T4] _]. now apply T4.
  Qed.
  Lemma eUnsetE_quiet s o f s1 es : GInv s -> RInv s -> legal M s (OUnset o f) -> f_cont f = false -> isContainer f = false ->
    eUnsetE M req s o f = Some (s1, es) -> quiet s s1 es.
  Proof.
    intros G R (Hf & Hmany) Hc Hnc. unfold eUnsetE. rewrite Hnc, Hc, orb_false_r. cbv zeta.
    unfold isBidirectional. destruct (GraphModel.f_opp M f) as [g|] eqn:Eg; [|intros [= <- <-]; repeat split].
    assert (Hm : f_many f = false). { destruct (GraphModel.f_many M f) eqn:Em; [|reflexivity]. destruct (Hmany eq_refl). congruence. }
    rewrite Hm. destruct (noncont_pair M W f g Eg Hc Hnc) as (Hgf & Hgc & Hcg & Hne).
    intro E. eapply quiet_bind; [exact E| |].
    - intros s3 e3. destruct (hd_error (slot s o f)) as [y|] eqn:Ey; cbn [whenE]; [|intros [= <- <-]; apply quiet_nil].
      assert (Hy : In y (slot s o f)) by (destruct (slot s o f); [discriminate|injection Ey as ->; now left]).
      destruct (g_typed M s G _ _ _ Hy) as [[_ T2] _]. specialize (T2 _ Eg).
      pose proof T2 as T3. apply (feat M W) in T3 as (_ & -> & _). now apply inverseRemoveE_quiet.
    - intros s2 e2 _ e3 [= <- <-]. destruct (hd_error (slot s o f)); unfold objEvents; rewrite ?Hc; repeat split.
  Qed.

  (** ** every call *)
  Lemma gstepE_accounted s p s1 es : GInv s -> RInv s -> legal M s p -> calm s p ->
    gstepE M req s p = Some (s1, es) -> accounted s s1 es.
  Proof.
    intros G R Hl Hcalm. destruct p as [o f v|o f|o f p|r p|r]; cbn [gstepE].
    - pose proof Hl as (_ & Hf & _). rewrite (accessed_own M W o f Hf). destruct (GraphModel.isContainer M f) eqn:Ec; [now apply eSetE_container|].
      destruct (GraphModel.f_cont M f) eqn:Ef; [now apply (eSetE_cont M W A0 req Hreq)|]. intro E. apply quiet_accounted. revert E. now apply eSetE_quiet.
    - pose proof Hl as (Hf & _). rewrite (accessed_own M W o f Hf). destruct (GraphModel.isContainer M f) eqn:Ec; [now apply eUnsetE_container|].
      destruct (GraphModel.f_cont M f) eqn:Ef; [now apply (eUnsetE_cont M W A0 req Hreq)|]. intro E. apply quiet_accounted. revert E. now apply eUnsetE_quiet.
    - pose proof Hl as (_ & Hf & _). rewrite (accessed_own M W o f Hf). destruct (GraphModel.f_cont M f) eqn:Ef; [now apply (listOpE_cont M W A0 req Hreq)|].
      intro E. apply quiet_accounted. revert E. now apply listOpE_quiet.
    - now apply (contentsOpE_ok M W A0 req Hreq).
    - destruct Hl.
  Qed.
End Rest.
