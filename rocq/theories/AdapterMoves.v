From Coq Require Import Permutation.
From Verif Require Import Base ListModel ListSpec ListProofs NotifyModel NotifyProofs CallbackProofs
  GraphModel GraphSpec GraphProofs GraphInv GraphSteps GraphAcyclic AdapterModel AdapterErase AdapterSpec AdapterWalk AdapterDispatch AdapterSummary AdapterEvents AdapterOps AdapterCalls.

Lemma bind_nil s k : bindE (Some (s, [])) k = k s.
Proof. cbn. now destruct (k s) as [[? ?]|]. Qed.

Section Moves.
  Context (M : metamodel) (W : wf_metamodel M) (A0 : flags) (req : notifier -> bool).
  Context (Hreq : forall n, A0 n = true -> req n = true).
  Notation f_many := (f_many M). Notation f_cont := (f_cont M). Notation f_opp := (f_opp M).
  Notation f_id := (f_id M). Notation f_resolve := (f_resolve M). Notation features := (features M).
  Notation isContainer := (isContainer M). Notation feature_at := (feature_at M).
  Notation getFeatureID := (getFeatureID M). Notation link_typed := (link_typed M).
  Notation GInv := (GInv M). Notation RInv := (RInv M). Notation code := (code M).
  Notation leftC := (leftC M req). Notation leftR := (leftR req).
  Notation accounted := (accounted A0). Notation own := (own req).

  Lemma leftC_move st s x e : container st x = container s x ->
    (forall c f0, f_cont f0 = true -> In x (slot st c f0) -> In x (slot s c f0)) -> leftC st x e -> leftC s x e.
  Proof.
    intros E H [[-> L]|(c & f & nt & Hc & Hf & Hin & He & Hr & Ha)]; [left; rewrite <- E; auto|right].
    exists c, f, nt. rewrite <- E. auto 10.
  Qed.
  Lemma own_list o f data p st Rm Ad : f_cont f = true -> list_effect data p = Some (st, Rm, Ad) ->
    own (NObj o) f Rm Ad (objEvents M req o f (listEvents data (L p))).
  Proof.
    intros Hf E. unfold objEvents. rewrite Hf. cbn [andb]. destruct (list_notif data p st Rm Ad E) as [[-> [-> ->]]|(nt & -> & Hr & Ha & _)].
    - left. split; [destruct (req (NObj o)); reflexivity|auto].
    - destruct (req (NObj o)) eqn:Eq; [right; exists nt; auto|left; auto].
  Qed.
  Lemma own_res r data p st Rm Ad : list_effect data p = Some (st, Rm, Ad) ->
    own (NRes r) 0%nat Rm Ad (resEvents req r (listEvents data (L p))).
  Proof.
    intros E. unfold resEvents. destruct (list_notif data p st Rm Ad E) as [[-> [-> ->]]|(nt & -> & Hr & Ha & _)].
    - left. split; [destruct (req (NRes r)); reflexivity|auto].
    - destruct (req (NRes r)) eqn:Eq; [right; exists nt; auto|left; auto].
  Qed.
  Lemma own_set o f old v : f_cont f = true ->
    own (NObj o) f (to_list old) (to_list v) (objEvents M req o f [Notif SET (payload_of old) (payload_of v) (-1)]).
  Proof.
    intro Hf. unfold objEvents. rewrite Hf. cbn [andb]. destruct (req (NObj o)) eqn:Eq; [right|left; auto].
    eexists; split; [reflexivity|]. destruct old, v; split; reflexivity.
  Qed.

  Lemma listOpE_cont s o f p s1 es : GInv s -> RInv s -> legal M s (OList o f p) -> calm s (OList o f p) -> f_cont f = true ->
    listOpE M req s o f p = Some (s1, es) -> accounted s s1 es.
  Proof.
    intros G R (Hm & Hf & Hok & Hargs) Hcalm Hc. unfold listOpE.
    destruct (list_effect (slot s o f) p) as [[[st Rm] Ad]|] eqn:Ele; [|discriminate]. cbv zeta.
    pose proof (own_list o f _ _ _ _ _ Hc Ele) as Hown.
    pose proof (g_nodup M s G o f) as Hnd.
    pose proof Ele as Eg. apply list_effect_good in Eg as [Eg _]; [|assumption|assumption].
    destruct (effect_elements _ _ _ _ _ Hnd Eg) as (N1 & N2 & Hel).
    pose proof (added_calm s _ _ _ _ _ Eg Hcalm) as Hadd.
    destruct Eg as (_ & Hi & HA & Hd & Harg).
    destruct (foldE_rem_cont M W req o f Rm Hc (setSlot s o f (final (slot s o f) st)) (slot s o f))
      as (s2 & V & -> & G2 & R2 & HV & C1 & C2 & C3 & C4 & C5); [now apply GInv_view|exact R|assumption|assumption|].
    rewrite bind_nil. change (container (setSlot s o f (final (slot s o f) st))) with (container s) in C2.
    change (internalResource (setSlot s o f (final (slot s o f) st))) with (internalResource s) in C3.
    assert (C5' : forall a k, a <> o \/ k <> f -> slot s2 a k = slot s a k) by (intros; rewrite C5 by assumption; now apply slot_ne).
    assert (HxV : forall x, In x Ad -> ~ In x V). { intros x Hx Hv. apply HV in Hv as [Hv _]. exact (Hd x Hx Hv). }
    assert (Htyp : forall x, In x Ad -> link_typed o f x).
    { intros x Hx. destruct (Harg x Hx) as [Ha|Ha]; [now apply Hargs|]. now apply (g_typed M s G). }
    assert (HAR : forall x, In x Ad -> ~ In x Rm) by (intros x Hx Hr; exact (Hd x Hx (Hi x Hr))).
    assert (HRs : forall y, In y Rm -> container s y = Some o) by (intros y Hy; now apply (g_cont M s G o f y Hc), Hi).
    assert (Free : (forall x, In x Ad -> free s x) ->
      bindE (foldE (fun s x => listInverseAddE M req s o f x) Ad s2) (fun s2 => Some (s2, objEvents M req o f (listEvents (slot s o f) (L p)))) = Some (s1, es) ->
      accounted s s1 es).
    { intro Hfr. destruct (foldE_add_free M W req o f Ad Hc Hm s2 V G2 R2 HA HxV Htyp) as (s3 & -> & D1 & D2 & D3).
      { intros x Hx. destruct (Hfr x Hx). split; [rewrite C2; auto|now rewrite C3]. }
      rewrite bind_nil. intros [= <- <-].
      refine (eq_ind _ (accounted s s3) (cont_summary M A0 req Hreq s s3 o f 0 Rm Ad [] [] _ true D1 _ _ _ _ _ _ _ Hown) _ _).
      - intros y Hy. split; [now apply HRs|]. rewrite D2 by (intro; now apply (HAR y)). auto.
      - intros y Hy Hy'. rewrite D2 by assumption. auto.
      - intros y Hy _. now apply Hfr.
      - intros y _. now rewrite D3, C3.
      - left. now rewrite D3, C3.
      - discriminate.
      - right. split; [reflexivity|]. split; [reflexivity|]. intros y Hy. now apply Hfr.
      - cbn. now rewrite app_nil_r. }
    destruct Hadd as [E|[[x E]|Hfr]]; [apply Free; rewrite E; intros x []| |now apply Free].
    clear Free. rewrite E in *. assert (Hx : In x [x]) by now left.
    destruct (listInverseAddE_cont M W req s2 o f x V G2 R2 Hc (HxV x Hx) (Htyp x Hx)) as (s3 & e1 & e2 & E3 & D1 & L1 & D2).
    cbn [foldE]. rewrite E3. cbn [bindE just]. intros [= <- <-].
    assert (Hc0 : container s2 x = container s x) by (apply C2; now apply HAR).
    assert (L1' : leftC s x e1).
    { apply (leftC_move (setSlot s2 o f V)); [assumption| |assumption]. intros c f0 _ Hin.
      destruct (slot_dec c f0 o f) as [[-> ->]|D]; [rewrite slot_eq in Hin; destruct (HxV x Hx Hin)|]. rewrite slot_ne in Hin by assumption. now rewrite <- C5'. }
    refine (eq_ind _ (accounted s s3) (cont_summary M A0 req Hreq s s3 o f x Rm [x] e1 e2 _ true _ _ _ _ _ _ _ _ Hown) _ _).
    - intros y [<-|[]]. rewrite D1. apply upd_eq.
    - intros y Hy. split; [now apply HRs|]. rewrite D1, upd_ne; [auto|]. intros ->. exact (HAR x Hx Hy).
    - intros y Hy Hy'. rewrite D1, upd_ne; [auto|]. intros ->. now apply Hy.
    - intros y [<-|[]] N. congruence.
    - intros y N. destruct D2 as [[_ ->]|[_ ->]]; rewrite ?upd_ne by assumption; now rewrite C3.
    - destruct D2 as [[? ->]|[L2 ->]]; [left; now rewrite C3|right]. split; [|apply upd_eq]. apply (leftR_ext req s2); [now rewrite C3|assumption].
    - intros c f0 nt ->. destruct L1 as [[? _]|(c' & f' & nt' & _ & _ & Hin & [= -> -> _] & _)]; [discriminate|].
      destruct (slot_dec c' f' o f) as [[-> ->]|D]; [rewrite slot_eq in Hin; destruct (HxV x Hx Hin)|lia].
    - left. auto.
    - cbn. now rewrite !app_nil_r, <- ?app_assoc.
  Qed.

  (** ** the contents of a resource *)
  Lemma contentsOpE_ok s r p s1 es : GInv s -> RInv s -> legal M s (OContents r p) -> calm s (OContents r p) ->
    contentsOpE M req s r p = Some (s1, es) -> accounted s s1 es.
  Proof.
    intros G R Hok [Hcalm Hset]. unfold contentsOpE. cbn [legal] in Hok.
    destruct (list_effect (contents s r) p) as [[[st Rm] Ad]|] eqn:Ele; [|discriminate]. cbv zeta.
    pose proof (own_res r _ _ _ _ _ Ele) as Hown.
    pose proof R as (R1 & R2 & R3 & R4).
    pose proof Ele as E. apply list_effect_good in E as [E St]; [|apply R2|assumption].
    destruct (effect_elements _ _ _ _ _ (R2 r) E) as (N1 & N2 & Hel).
    pose proof (added_calm s _ _ _ _ _ E Hcalm) as Hadd.
    destruct E as (_ & Hi & HA & Hd & _).
    destruct (contentsStages_frame r st s) as (E1 & E2 & E3 & E4 & E5 & E6 & E7).
    specialize (E7 (R3 r) St).
    remember (contentsStages s r st) as s0.
    assert (G0 : GInv s0) by (apply (GInv_ext M _ _ G); intros; congruence).
    assert (R0 : RInv (view s0 r (contents s r))).
    { assert (Ec : forall q, contents (view s0 r (contents s r)) q = contents s q).
      { intro q. cbn. unfold upd. destruct (Nat.eqb_spec q r) as [->|Hq]; [reflexivity|]. now apply E5. }
      apply (RInv_ext M s); auto; try (intros; cbn; congruence).
      - intros q y. now rewrite Ec.
      - intro q. rewrite Ec. apply R2.
      - intro q. rewrite Ec. cbn. unfold upd. destruct (Nat.eqb_spec q r) as [->|Hq]; [reflexivity|].
        destruct (E5 q Hq) as [_ ->]. apply R3. }
    destruct (foldE_setres_rem M req r Rm s0 (contents s r) G0 R0 N2 Hi) as (s2 & K & -> & G2 & RV2 & HK & C1 & C2 & C3 & C4).
    rewrite bind_nil. rewrite E3 in C2. rewrite E1 in C3. rewrite E4 in C4.
    assert (HxK : forall x, In x Ad -> ~ In x K). { intros x Hx Hv. apply HK in Hv as [Hv _]. exact (Hd x Hx Hv). }
    assert (HAR : forall x, In x Ad -> ~ In x Rm) by (intros x Hx Hr; exact (Hd x Hx (Hi x Hr))).
    assert (HAr : forall x, In x Ad -> internalResource s x <> Some r) by (intros x Hx Hr; apply R1 in Hr; exact (Hd x Hx Hr)).
    assert (HRs : forall y, In y Rm -> internalResource s y = Some r) by (intros y Hy; now apply R1, Hi).
    assert (Hset' : forall s1, (forall y, In y Rm -> container s1 y = container s y) -> forall nt,
      resEvents req r (listEvents (contents s r) (L p)) = [(NRes r, 0%nat, nt)] ->
      checkC (NRes r) nt = true \/ forall y, In y Rm -> container s1 y = None).
    { intros s' Hs nt Hnt. destruct (list_notif _ _ _ _ _ Ele) as [[En _]|(nt' & En & Er & Ea & Hs' & Hu)];
        rewrite En in Hnt; unfold resEvents in Hnt; destruct (req (NRes r)); try discriminate Hnt. cbn in Hnt. injection Hnt as ->.
      unfold checkC. destruct (evt nt) eqn:Ev; cbn; auto. right. intros y Hy.
      destruct (Hs' eq_refl) as (i & e & z & -> & Hz & Erm & N). rewrite Erm in Hy. destruct Hy as [<-|[]].
      rewrite Hs by (rewrite Erm; now left). destruct (Hset z Hz); [contradiction|assumption]. }
    assert (Free : (forall x, In x Ad -> free s x) ->
      bindE (foldE (fun s x => eSetResourceE M req s x (Some r)) Ad s2) (fun s2 => Some (s2, resEvents req r (listEvents (contents s r) (L p)))) = Some (s1, es) ->
      accounted s s1 es).
    { intro Hfr. destruct (foldE_setres_free M W req r Ad s2 K G2 RV2 HA HxK) as (s3 & -> & D1 & D2 & D3).
      { intros x Hx. destruct (Hfr x Hx). split; [now rewrite C3|]. rewrite C2; auto. }
      rewrite bind_nil. intros [= <- <-].
      refine (eq_ind _ (accounted s s3) (res_summary M A0 req Hreq s s3 r 0 Rm Ad [] [] _ _ _ _ _ _ _ _ Hown _) _ _).
      - intros y Hy. auto.
      - intros y Hy. split; [now apply HRs|]. rewrite D2 by (intro; now apply (HAR y)). auto.
      - intros y Hy Hy'. rewrite D2 by assumption. auto.
      - intros y Hy _. now apply Hfr.
      - intros y _. now rewrite D3, C3.
      - left. now rewrite D3, C3.
      - right. split; [reflexivity|]. split; [reflexivity|]. intros y Hy. now apply Hfr.
      - apply Hset'. intros y Hy. now rewrite D3, C3.
      - reflexivity. }
    destruct Hadd as [E|[[x E]|Hfr]]; [apply Free; rewrite E; intros x []| |now apply Free].
    clear Free. rewrite E in *. assert (Hx : In x [x]) by now left.
    destruct (eSetResourceE_add M W req s2 r K x G2 RV2 (HxK x Hx)) as (s3 & e1 & e2 & Es3 & D1 & L2 & D2).
    cbn [foldE]. rewrite Es3. cbn [bindE just]. intros [= <- <-].
    assert (Hr0 : internalResource s2 x = internalResource s x) by (apply C2; now apply HAR).
    assert (Hcon : forall y, y <> x -> container s3 y = container s y).
    { intros y N. destruct D2 as [[_ ->]|[_ [_ ->]]]; rewrite ?upd_ne by assumption; now rewrite C3. }
    refine (eq_ind _ (accounted s s3) (res_summary M A0 req Hreq s s3 r x Rm [x] e1 e2 _ _ _ _ _ Hcon _ _ Hown _) _ _).
    - intros y [<-|[]]. rewrite D1. split; [apply upd_eq|now apply HAr].
    - intros y Hy. split; [now apply HRs|]. rewrite D1, upd_ne; [auto|]. intros ->. exact (HAR x Hx Hy).
    - intros y Hy Hy'. rewrite D1, upd_ne; [auto|]. intros ->. now apply Hy.
    - intros y [<-|[]] N. congruence.
    - destruct D2 as [[? ->]|[L1 [-> ->]]]; [left; now rewrite C3|right]. split; [|split; [reflexivity|apply upd_eq]].
      apply (leftC_move s2); [now rewrite C3| |assumption]. intros c f0 _. now rewrite C4.
    - left. split; [assumption|]. apply (leftR_ext req s2); [now rewrite Hr0|assumption].
    - apply Hset'. intros y Hy. apply Hcon. intros ->. exact (HAR x Hx Hy).
    - cbn. now rewrite !app_nil_r, <- ?app_assoc.
  Qed.

  (** ** single-valued containment references *)
  Lemma eSetE_cont s o f v s1 es : GInv s -> RInv s -> legal M s (OSet o f v) -> f_cont f = true ->
    eSetE M req s o f v = Some (s1, es) -> accounted s s1 es.
  Proof.
    intros G R (Hm & Hf & Ht) Hc. unfold eSetE. rewrite (cont_not_container M W f Hc), Hc, orb_true_r. cbv zeta.
    pose proof (g_single M s G o f Hm) as Hsi.
    assert (Hold : slot s o f = to_list (hd_error (slot s o f))).
    { destruct (slot s o f) as [|y [|z l]]; cbn in *; [reflexivity|reflexivity|lia]. }
    destruct (some_eqb (hd_error (slot s o f)) v) eqn:Eq.
    { intros [= <- <-]. now apply accounted_neutral. }
    pose proof (own_set o f (hd_error (slot s o f)) v Hc) as Hown.
    remember (hd_error (slot s o f)) as old eqn:Eold.
    (* both ends through the list primitives *)
    assert (Hrem : exists s2, whenE old s (fun y => listInverseRemoveE M req s o f y) = Some (s2, [])
        /\ GInv (setSlot s2 o f []) /\ RInv s2 /\ internalResource s2 = internalResource s
        /\ (forall y, In y (to_list old) -> container s2 y = None) /\ (forall y, ~ In y (to_list old) -> container s2 y = container s y)
        /\ (forall a k, a <> o \/ k <> f -> slot s2 a k = slot s a k)).
    { destruct (foldE_rem_cont M W req o f (to_list old) Hc s (slot s o f)) as (s2 & V & E & G2 & R2 & HV & C1 & C2 & C3 & _ & C5);
        [now apply GInv_view_self|assumption|destruct old; repeat constructor; auto|now rewrite Hold; apply incl_refl|].
      assert (V = []). { destruct V as [|z V]; [reflexivity|]. destruct (proj1 (HV z) (or_introl eq_refl)) as [H1 H2]. rewrite Hold in H1. contradiction. }
      subst V. exists s2. split; [|auto 10]. rewrite <- E. destruct old as [y|]; cbn [whenE to_list foldE]; [|reflexivity].
      unfold just. destruct (listInverseRemoveE M req s o f y) as [[? ?]|]; cbn; [now rewrite app_nil_r|reflexivity]. }
    destruct Hrem as (s2 & Er & G2 & R2 & C3 & C1 & C2 & C5).
    assert (Hmain : forall m, bindE (whenE v s2 (fun x => listInverseAddE M req s2 o f x))
              (fun s3 => Some (setSlot s3 o f (to_list v), m)) = Some (s1, es) -> own (NObj o) f (to_list old) (to_list v) m -> accounted s s1 es).
    { intros m Em Hm'. assert (Hro : forall y, In y (to_list old) -> container s y = Some o).
      { intros y Hy. apply (g_cont M s G o f y Hc). now rewrite Hold. }
      destruct v as [x|]; cbn [whenE to_list] in Em, Hm'.
      - assert (Hxo : ~ In x (to_list old)).
        { destruct old as [y|]; cbn in Eq |- *; [|tauto]. apply Nat.eqb_neq in Eq. intros [|[]]. congruence. }
        destruct (listInverseAddE_cont M W req s2 o f x [] G2 R2 Hc (fun H => H) (Ht x eq_refl)) as (s3 & e1 & e2 & E3 & D1 & L1 & D2).
        rewrite E3 in Em. cbn [bindE] in Em. injection Em as <- <-.
        assert (Dc : forall y, In y [x] -> container (setSlot s3 o f [x]) y = Some o).
        { intros y [<-|[]]. cbn. rewrite D1. apply upd_eq. }
        refine (eq_ind _ (accounted s _) (cont_summary M A0 req Hreq s (setSlot s3 o f [x]) o f x (to_list old) [x] e1 e2 m true Dc _ _ _ _ _ _ _ Hm') _ _).
        + intros y Hy. split; [now apply Hro|]. cbn. rewrite D1, upd_ne; [auto|]. intros ->. contradiction.
        + intros y Hy Hy'. cbn. rewrite D1, upd_ne; [auto|]. intros ->. apply Hy. now left.
        + intros y [<-|[]] N. congruence.
        + intros y N. cbn. destruct D2 as [[_ ->]|[_ ->]]; rewrite ?upd_ne by assumption; now rewrite C3.
        + cbn. destruct D2 as [[? ->]|[L2 ->]]; [left; now rewrite C3|right]. split; [|apply upd_eq]. apply (leftR_ext req s2); [now rewrite C3|assumption].
        + intros c f0 nt ->. destruct L1 as [[? _]|(c' & f' & nt' & _ & _ & Hin & [= -> -> _] & _)]; [discriminate|].
          destruct (slot_dec c' f' o f) as [[-> ->]|D]; [rewrite slot_eq in Hin; destruct Hin|lia].
        + left. split; [now left|]. apply (leftC_move (setSlot s2 o f [])); [cbn; now apply C2| |assumption]. intros c f0 _ Hin.
          destruct (slot_dec c f0 o f) as [[-> ->]|D]; [rewrite slot_eq in Hin; destruct Hin|]. rewrite slot_ne in Hin by assumption. now rewrite <- C5.
        + cbn. now rewrite !app_nil_r, <- ?app_assoc.
      - cbn in Em. injection Em as <- <-.
        refine (eq_ind _ (accounted s _) (cont_summary M A0 req Hreq s (setSlot s2 o f []) o f 0 (to_list old) [] [] [] m true _ _ _ _ _ _ _ _ Hm') _ _).
        + intros y [].
        + intros y Hy. split; [now apply Hro|]. cbn. auto.
        + intros y _ Hy'. cbn. auto.
        + intros y [].
        + intros y N. cbn. now rewrite C3.
        + left. cbn. now rewrite C3.
        + discriminate.
        + right. split; [reflexivity|]. split; [reflexivity|]. intros y [].
        + cbn. now rewrite !app_nil_r. }
    unfold listInverseAddE, listInverseRemoveE in *. destruct (GraphModel.f_opp M f) as [g|] eqn:Eg.
    - assert (E1 : whenE old s (fun y => inverseRemoveE M req s y o (getFeatureID y g)) = Some (s2, [])).
      { rewrite <- Er. destruct old as [y|]; [|reflexivity]. cbn [whenE].
        assert (Hy : In y (slot s o f)) by (rewrite Hold; now left).
        destruct (g_typed M s G _ _ _ Hy) as [[_ T2] _]. specialize (T2 _ Eg).
        apply (feat M W) in T2 as (_ & -> & _). reflexivity. }
      rewrite E1, bind_nil.
      assert (E2 : whenE v s2 (fun x => inverseAddE M req s2 x o (getFeatureID x g)) = whenE v s2 (fun x => inverseAddE M req s2 x o (f_id g))).
      { destruct v as [x|]; [|reflexivity]. cbn [whenE].
        destruct (Ht x eq_refl) as [_ T2]. specialize (T2 _ Eg).
        apply (feat M W) in T2 as (_ & -> & _). reflexivity. }
      rewrite E2. intro Em. exact (Hmain _ Em Hown).
    - rewrite Hc in *. pose proof Hf as Hf'. apply (feat M W) in Hf' as (_ & -> & _). rewrite Er, bind_nil. intro Em. exact (Hmain _ Em Hown).
  Qed.

  Lemma eUnsetE_cont s o f s1 es : GInv s -> RInv s -> legal M s (OUnset o f) -> f_cont f = true ->
    eUnsetE M req s o f = Some (s1, es) -> accounted s s1 es.
  Proof.
    intros G R (Hf & Hmany) Hc E.
    assert (Hm : f_many f = false). { destruct (GraphModel.f_many M f) eqn:Em; [|reflexivity]. destruct (Hmany eq_refl). congruence. }
    unfold eUnsetE in E. rewrite (cont_not_container M W f Hc), Hc, orb_true_r, Hm in E. cbv zeta in E.
    destruct (hd_error (slot s o f)) as [y|] eqn:Ey.
    - apply (eSetE_cont s o f None); [assumption|assumption|split; [assumption|split; [assumption|discriminate]]|assumption|].
      rewrite <- E. unfold eSetE. rewrite (cont_not_container M W f Hc), Hc, orb_true_r. cbv zeta. rewrite Ey. cbn [some_eqb whenE payload_of to_list].
      destruct (GraphModel.f_opp M f); destruct (inverseRemoveE M req s y o _) as [[? ?]|]; cbn; now rewrite ?app_nil_r.
    - cbn in E. injection E as <- <-. now apply accounted_neutral.
  Qed.
End Moves.
