From Coq Require Import Permutation.
From Verif Require Import Base ListModel ListSpec ListProofs NotifyModel NotifyProofs CallbackProofs
  GraphModel GraphSpec GraphProofs GraphInv GraphSteps GraphAcyclic AdapterModel AdapterErase AdapterSpec AdapterWalk AdapterDispatch AdapterSummary AdapterEvents.

Section Ops.
  Context (M : metamodel) (W : wf_metamodel M) (req : notifier -> bool).
  Notation f_many := (f_many M). Notation f_cont := (f_cont M). Notation f_opp := (f_opp M).
  Notation f_id := (f_id M). Notation f_resolve := (f_resolve M). Notation features := (features M).
  Notation isContainer := (isContainer M). Notation feature_at := (feature_at M).
  Notation getFeatureID := (getFeatureID M). Notation link_typed := (link_typed M).
  Notation GInv := (GInv M). Notation RInv := (RInv M). Notation code := (code M).

  Definition leftC (s : state) (x : obj) (e : list event) : Prop :=
    (e = [] /\ forall c, container s x = Some c -> req (NObj c) = false) \/
    exists c f nt, container s x = Some c /\ f_cont f = true /\ In x (slot s c f) /\ e = [(NObj c, f, nt)]
      /\ rems nt = [x] /\ adds nt = [].
  Definition leftR (s : state) (x : obj) (e : list event) : Prop :=
    (e = [] /\ forall r, internalResource s x = Some r -> req (NRes r) = false) \/
    exists r nt, internalResource s x = Some r /\ e = [(NRes r, 0%nat, nt)] /\ evt nt = REMOVE /\ rems nt = [x].

  Lemma leftC_none s x e : container s x = None -> leftC s x e -> e = [].
  Proof. intros H [[-> _]|(c & f & nt & Hc & _)]; [reflexivity|congruence]. Qed.
  Lemma leftR_none s x e : internalResource s x = None -> leftR s x e -> e = [].
  Proof. intros H [[-> _]|(c & nt & Hc & _)]; [reflexivity|congruence]. Qed.
  Lemma leftR_ext s s' x e : internalResource s' x = internalResource s x -> leftR s x e -> leftR s' x e.
  Proof. intros E. unfold leftR. rewrite E. auto. Qed.

  Lemma erased {m : edit} {s' : state} : erase m = Some s' -> exists es, m = Some (s', es).
  Proof. destruct m as [[s e]|]; cbn; [|discriminate]. intros [= ->]. eauto. Qed.

  Lemma inverseRemoveE_slot s c k y : In k (features c) -> isContainer k = false -> f_cont k = true ->
    NoDup (slot s c k) -> (f_many k = false -> (length (slot s c k) <= 1)%nat) -> In y (slot s c k) ->
    exists l' nt, inverseRemoveE M req s c y (f_id k) = Some (setSlot s c k l', if req (NObj c) then [(NObj c, k, nt)] else [])
      /\ minus y (slot s c k) l' /\ rems nt = [y] /\ adds nt = [].
  Proof.
    intros Hk Hnc Hcont Hnd Hsi Hy. apply (feat M W) in Hk as (Hat & _ & H0). unfold inverseRemoveE.
    destruct (Z.geb_spec (f_id k) 0); [|lia]. unfold basicInverseRemoveE. rewrite Hat.
    unfold objEvents. rewrite Hcont. cbn [andb]. destruct (GraphModel.f_many M k) eqn:Em.
    - destruct (removeWithNotification_ok (slot s c k) y Hnd) as (cb & -> & _). cbn [obind emit].
      destruct (remove_notif (slot s c k) y Hnd Hy) as [i ->].
      exists (rm y (slot s c k)), (Notif REMOVE (PObj y) PNil i). split; [reflexivity|]. split; [now apply minus_rm|]. split; reflexivity.
    - rewrite Hnc. specialize (Hsi eq_refl). destruct (slot s c k) as [|z [|w l]] eqn:El; [destruct Hy| |cbn in Hsi; lia].
      destruct Hy as [->|[]]. exists [], (Notif SET (PObj y) PNil (-1)). split; [reflexivity|].
      split; [apply minus_single; [cbn; lia|now left]|]. split; reflexivity.
  Qed.

  Lemma removeFromContainerE_leaves s st x : GInv st -> container st x = container s x ->
    containerFeatureID st x = containerFeatureID s x ->
    (forall c f0, f_cont f0 = true -> In x (slot st c f0) -> slot st c f0 = slot s c f0) ->
    exists s1 e1, removeFromContainerE M req s x = Some (s1, e1) /\ container s1 = container s
      /\ containerFeatureID s1 = containerFeatureID s /\ internalResource s1 = internalResource s /\ contents s1 = contents s
      /\ leftC st x e1.
  Proof.
    intros G E1 E2 Es. unfold removeFromContainerE. cbv zeta. destruct (container s x) as [c|] eqn:Hc.
    2: { exists s, []. split; [reflexivity|]. repeat (split; [reflexivity|]). left. split; [reflexivity|]. congruence. }
    destruct (g_ex M st G x c) as (f0 & Hf0 & Hx); [congruence|].
    destruct (g_cont M st G _ _ _ Hf0 Hx) as [_ Hcode]. pose proof (Es c f0 Hf0 Hx) as Es0.
    destruct (g_typed M st G _ _ _ Hx) as [[T1 T2] Hnc].
    destruct (inverseRemoveE_slot s c f0 x T1 Hnc Hf0) as (l' & nt & Ei & _ & Hr & Ha); rewrite <- ?Es0;
      [apply (g_nodup M st G)|apply (g_single M st G)|assumption|].
    assert (Hgo : exists s1 e1, inverseRemoveE M req s c x (f_id f0) = Some (s1, e1) /\ container s1 = container s
      /\ containerFeatureID s1 = containerFeatureID s /\ internalResource s1 = internalResource s /\ contents s1 = contents s
      /\ leftC st x e1).
    { eexists _, _. split; [exact Ei|]. repeat (split; [reflexivity|]). destruct (req (NObj c)) eqn:Eq.
      - right. exists c, f0, nt. repeat split; auto; congruence.
      - left. split; [reflexivity|]. intros c' Hc'. congruence. }
    rewrite <- E2, Hcode. unfold GraphInv.code in *. destruct (GraphModel.f_opp M f0) as [g0|] eqn:Eg.
    - specialize (T2 _ eq_refl). apply (feat M W) in T2 as (Hat & _ & H0).
      destruct (Z.geb_spec (f_id g0) 0); [|lia]. rewrite Hat.
      destruct (wf_opp M W _ _ Eg) as [Eg' _]. rewrite Eg'. exact Hgo.
    - apply (feat M W) in T1 as (_ & _ & H0). destruct (Z.geb_spec (-1 - f_id f0) 0); [lia|].
      unfold BASE. replace (-1 - (-1 - f_id f0)) with (f_id f0) by lia. exact Hgo.
  Qed.

  Lemma contentsRemoveE_leaves s r x : internalResource s x = Some r -> In x (contents s r) -> NoDup (contents s r) ->
    exists s1 e2, contentsRemoveE req s r x = Some (s1, e2) /\ container s1 = container s
      /\ containerFeatureID s1 = containerFeatureID s /\ internalResource s1 = internalResource s /\ slot s1 = slot s
      /\ leftR s x e2.
  Proof.
    intros Hr Hx Hnd. unfold contentsRemoveE, contentsRemove.
    destruct (removeWithNotification_ok (contents s r) x Hnd) as (cb & -> & _). cbn [obind emit].
    destruct (remove_notif (contents s r) x Hnd Hx) as [i ->]. eexists _, _. split; [reflexivity|].
    match goal with |- context [contentsStages s r ?st] => pose proof (contentsStages_frame r st s) as (-> & -> & -> & -> & _) end.
    repeat (split; [reflexivity|]). unfold resEvents. cbn [map]. destruct (req (NRes r)) eqn:Eq.
    - right. exists r, (Notif REMOVE (PObj x) PNil i). repeat split; auto.
    - left. split; [reflexivity|]. intros r' Hr'. congruence.
  Qed.

  Lemma basicSetContainerE_none s x id : basicSetContainerE M req s x None id = Some (setContainer s x None id, []).
  Proof. unfold basicSetContainerE. now destruct (internalResource s x). Qed.

  Lemma basicSetContainerE_leaves s x c id cf : (forall r, internalResource s x = Some r -> In x (contents s r) /\ NoDup (contents s r)) ->
    eContainmentFeature M x c id = Some cf ->
    exists s1 e2, basicSetContainerE M req s x (Some c) id = Some (s1, e2) /\ container s1 = upd (container s) x (Some c)
      /\ slot s1 = slot s
      /\ ((e2 = [] /\ internalResource s1 = internalResource s)
          \/ (leftR s x e2 /\ internalResource s1 = upd (internalResource s) x None)).
  Proof.
    intros Hr Hcf. unfold basicSetContainerE. destruct (internalResource s x) as [r|] eqn:Er.
    - rewrite Hcf. destruct (negb (f_resolve cf)).
      + destruct (Hr r eq_refl) as [Hx Hnd]. destruct (contentsRemoveE_leaves s r x Er Hx Hnd) as (s1 & e2 & -> & E1 & E2 & E3 & E4 & L).
        cbn. rewrite !app_nil_r. eexists _, _. split; [reflexivity|]. cbn. rewrite E1, E3, E4. auto.
      + cbn. eexists _, _. split; [reflexivity|]. cbn. auto.
    - cbn. eexists _, _. split; [reflexivity|]. cbn. auto.
  Qed.

  (** ** containment references *)
  Lemma listInverseRemoveE_cont s o f x V : GInv (setSlot s o f V) -> In x V -> f_cont f = true ->
    exists id, listInverseRemoveE M req s o f x = Some (setContainer s x None id, []).
  Proof.
    intros G Hx Hf. assert (HxV : In x (slot (setSlot s o f V) o f)) by now rewrite slot_eq.
    destruct (g_typed M _ G _ _ _ HxV) as [[T1 T2] Hnc]. unfold listInverseRemoveE.
    destruct (GraphModel.f_opp M f) as [g|] eqn:Eg.
    - destruct (opp_container M W f g Hf Eg) as (Hgc & Hgm & _ & _).
      specialize (T2 _ eq_refl). apply (feat M W) in T2 as (Hat & Hid & H0).
      unfold inverseRemoveE. destruct (Z.geb_spec (f_id g) 0); [|lia].
      unfold basicInverseRemoveE. rewrite Hat, Hgm, Hgc, basicSetContainerE_none. eauto.
    - rewrite Hf. apply (feat M W) in T1 as (_ & _ & H0). unfold inverseRemoveE.
      destruct (Z.geb_spec (BASE - f_id f) 0); [unfold BASE in *; lia|]. rewrite basicSetContainerE_none. eauto.
  Qed.

  Lemma listInverseAddE_cont s o f x V : GInv (setSlot s o f V) -> RInv s -> f_cont f = true -> ~ In x V -> link_typed o f x ->
    exists s' e1 e2, listInverseAddE M req s o f x = Some (s', e1 ++ e2) /\ container s' = upd (container s) x (Some o)
      /\ leftC (setSlot s o f V) x e1
      /\ ((e2 = [] /\ internalResource s' = internalResource s)
          \/ (leftR s x e2 /\ internalResource s' = upd (internalResource s) x None)).
  Proof.
    intros G R Hf Hx Ht. destruct (containment_feature M W o f x Hf Ht) as [cf Hcf].
    destruct (removeFromContainerE_leaves s (setSlot s o f V) x G eq_refl eq_refl) as (s1 & e1 & E1 & C1 & F1 & R1 & K1 & L1).
    { intros c f0 _ Hin. destruct (slot_dec c f0 o f) as [[-> ->]|D]; [rewrite slot_eq in Hin; contradiction|now rewrite slot_ne]. }
    destruct (basicSetContainerE_leaves s1 x o (code f) cf) as (s2 & e2 & E2 & C2 & _ & H2); [|assumption|].
    { rewrite R1, K1. intros r Hr. destruct R as (R2 & R3 & _). split; [now apply R2|apply R3]. }
    assert (Hgo : exists s' e1 e2, (let+ s1 := removeFromContainerE M req s x in basicSetContainerE M req s1 x (Some o) (code f)) = Some (s', e1 ++ e2)
      /\ container s' = upd (container s) x (Some o) /\ leftC (setSlot s o f V) x e1
      /\ ((e2 = [] /\ internalResource s' = internalResource s)
          \/ (leftR s x e2 /\ internalResource s' = upd (internalResource s) x None))).
    { exists s2, e1, e2. rewrite E1. cbn [bindE]. rewrite E2. split; [reflexivity|]. split; [now rewrite C2, C1|]. split; [assumption|].
      rewrite <- R1. destruct H2 as [?|[H2 H3]]; [now left|right]. split; [|assumption]. apply (leftR_ext s1); [|assumption]. now rewrite R1. }
    unfold listInverseAddE. unfold GraphInv.code in Hgo. destruct (GraphModel.f_opp M f) as [g|] eqn:Eg.
    - destruct (opp_container M W f g Hf Eg) as (Hgc & Hgm & _ & _).
      pose proof (proj2 Ht _ Eg) as T2. apply (feat M W) in T2 as (Hat & Hid & H0).
      unfold inverseAddE. destruct (Z.geb_spec (f_id g) 0); [|lia].
      unfold basicInverseAddE. rewrite Hat, Hgm, Hgc, Hid. exact Hgo.
    - rewrite Hf. destruct Ht as [T1 _]. apply (feat M W) in T1 as (_ & _ & H0). unfold inverseAddE.
      destruct (Z.geb_spec (BASE - f_id f) 0); [unfold BASE in *; lia|]. exact Hgo.
  Qed.

  Lemma foldE_rem_cont o f R : f_cont f = true -> forall s V, GInv (setSlot s o f V) -> RInv s -> NoDup R -> incl R V ->
    exists s' V', foldE (fun s x => listInverseRemoveE M req s o f x) R s = Some (s', [])
      /\ GInv (setSlot s' o f V') /\ RInv s' /\ (forall y, In y V' <-> In y V /\ ~ In y R)
      /\ (forall y, In y R -> container s' y = None) /\ (forall y, ~ In y R -> container s' y = container s y)
      /\ internalResource s' = internalResource s /\ slot s' o f = slot s o f
      /\ (forall a k, a <> o \/ k <> f -> slot s' a k = slot s a k).
  Proof.
    intro Hf. induction R as [|x R IH]; intros s V G Rv Hnd Hi; cbn [foldE].
    { exists s, V. split; [reflexivity|]. split; [assumption|]. split; [assumption|]. split; [cbn; tauto|]. split; [intros y []|]. auto. }
    inversion Hnd as [|? ? Hx Hnd']; subst. assert (HxV : In x V) by (apply Hi; now left).
    destruct (listInverseRemoveE_cont s o f x V G HxV Hf) as [id Ec].
    destruct (rem_ok M W s o f x V G Rv HxV) as (s1 & E1 & S1 & G1 & R1).
    assert (s1 = setContainer s x None id).
    { pose proof (listInverseRemove_erase M req s o f x) as E. rewrite Ec, E1 in E. cbn in E. congruence. }
    subst s1. rewrite Ec. cbn [bindE].
    destruct (IH (setContainer s x None id) (rm x V) G1 R1 Hnd') as (s' & V' & E & G' & R' & HV & H1 & H2 & H3 & H4 & H5).
    { intros y Hy. apply rm_in. split; [apply Hi; now right|]. intros ->. contradiction. }
    exists s', V'. rewrite E. split; [reflexivity|]. split; [assumption|]. split; [assumption|]. split.
    { intro y. rewrite HV, rm_in. cbn. split; [intros [[? ?] ?]; split; [assumption|intros [|]; congruence]|intros [? N]; repeat split; auto]. }
    split.
    { intros y [<-|Hy]; [|auto]. rewrite H2 by assumption. cbn. now rewrite upd_eq. }
    split.
    { intros y Hy. rewrite H2 by (intro; apply Hy; now right). cbn. apply upd_ne. intros ->. apply Hy. now left. }
    auto.
  Qed.

  Lemma foldE_add_free o f A : f_cont f = true -> f_many f = true -> forall s V, GInv (setSlot s o f V) -> RInv s -> NoDup A ->
    (forall x, In x A -> ~ In x V) -> (forall x, In x A -> link_typed o f x) -> (forall x, In x A -> free s x) ->
    exists s', foldE (fun s x => listInverseAddE M req s o f x) A s = Some (s', [])
      /\ (forall y, In y A -> container s' y = Some o) /\ (forall y, ~ In y A -> container s' y = container s y)
      /\ forall y, internalResource s' y = internalResource s y.
  Proof.
    intros Hf Hm. induction A as [|x A IH]; intros s V G Rv Hnd HV Ht Hfr; cbn [foldE].
    { exists s. split; [reflexivity|]. split; [intros y []|]. auto. }
    inversion Hnd as [|? ? Hx Hnd']; subst. pose proof (HV x (or_introl eq_refl)) as HxV.
    destruct (listInverseAddE_cont s o f x V G Rv Hf HxV) as (s1 & e1 & e2 & Ec & C1 & L1 & H1); [apply Ht; now left|].
    destruct (Hfr x (or_introl eq_refl)) as [Fc Fr].
    apply leftC_none in L1; [|assumption]. subst e1.
    assert (e2 = [] /\ forall y, internalResource s1 y = internalResource s y) as [-> Hres].
    { destruct H1 as [[-> ->]|[L2 ->]]; [auto|]. apply leftR_none in L2; [|assumption]. split; [assumption|].
      intro y. unfold upd. destruct (Nat.eqb_spec y x); congruence. }
    destruct (add_ok M W s o f x V G Rv HxV) as (s1' & E1 & S1 & G1 & R1);
      [apply Ht; now left|now apply many_not_container|congruence|].
    assert (s1' = s1).
    { pose proof (listInverseAdd_erase M req s o f x) as E. rewrite Ec, E1 in E. cbn in E. congruence. }
    subst s1'. rewrite Ec. cbn [bindE app].
    destruct (IH s1 (V ++ [x]) G1 R1 Hnd') as (s' & E & H2 & H3 & H4).
    { intros y Hy Hin. apply in_app_or in Hin as [Hin|[<-|[]]]; [|contradiction]. apply (HV y); [now right|assumption]. }
    { intros; apply Ht; now right. }
    { intros y Hy. destruct (Hfr y (or_intror Hy)) as [? ?]. split; [|now rewrite Hres]. rewrite C1, upd_ne; [assumption|]. congruence. }
    exists s'. rewrite E. split; [reflexivity|]. split.
    { intros y [<-|Hy]; [|auto]. rewrite H3 by assumption. rewrite C1. now rewrite upd_eq. }
    split.
    { intros y Hy. rewrite H3 by (intro; apply Hy; now right). rewrite C1. apply upd_ne. intros ->. apply Hy. now left. }
    intro y. now rewrite H4.
  Qed.

  (** ** contents of resources *)
  Lemma eSetResourceE_rem s r K x : RInv (view s r K) -> In x K ->
    eSetResourceE M req s x None = Some (setResource s x None, []).
  Proof.
    intros (Rm & _ & _ & Rr) Hx. unfold eSetResourceE.
    assert (Hr : internalResource s x = Some r). { apply (Rm x r). cbn. now rewrite upd_eq. }
    rewrite Hr. cbn. destruct (container s x) as [c|] eqn:Ec; [|reflexivity].
    destruct (Rr x c r Ec Hr) as (cf & Hcf & Hres). cbn in Hcf. rewrite Hcf, Hres. reflexivity.
  Qed.
  Lemma eSetResourceE_add s r K x : GInv s -> RInv (view s r K) -> ~ In x K ->
    exists s' e1 e2, eSetResourceE M req s x (Some r) = Some (s', e2 ++ e1)
      /\ internalResource s' = upd (internalResource s) x (Some r) /\ leftR s x e2
      /\ ((e1 = [] /\ container s' = container s)
          \/ (leftC s x e1 /\ e2 = [] /\ container s' = upd (container s) x None)).
  Proof.
    intros G (Rm & Rn & _ & Rr) Hx. unfold eSetResourceE. destruct (internalResource s x) as [q|] eqn:Eq.
    - assert (Hq : q <> r). { intros ->. apply Hx. assert (H : In x (contents (view s r K) r)) by now apply Rm. cbn in H. now rewrite upd_eq in H. }
      assert (Hin : In x (contents s q)). { assert (H : In x (contents (view s r K) q)) by now apply Rm. cbn in H. now rewrite upd_ne in H. }
      assert (Hnd : NoDup (contents s q)). { pose proof (Rn q) as H. cbn in H. now rewrite upd_ne in H. }
      destruct (contentsRemoveE_leaves s q x Eq Hin Hnd) as (s1 & e2 & -> & C1 & F1 & R1 & S1 & L). cbn [bindE].
      exists (setResource s1 x (Some r)), [], e2. rewrite C1. cbn [container setResource internalResource]. rewrite R1.
      assert (Hgo : match container s x with
        | Some c => match eContainmentFeature M x c (containerFeatureID s1 x) with
                    | None => None
                    | Some f => if f_resolve f then just s1 else let+ s' := removeFromContainerE M req s1 x in basicSetContainerE M req s' x None (-1)
                    end
        | None => just s1 end = just s1).
      { destruct (container s x) as [c|] eqn:Ec; [|reflexivity]. rewrite F1. destruct (Rr x c q Ec Eq) as (cf & Hcf & Hres). cbn in Hcf.
        rewrite Hcf, Hres. reflexivity. }
      rewrite Hgo. cbn. split; [reflexivity|]. split; [reflexivity|]. split; [assumption|]. left. split; [reflexivity|congruence].
    - cbn [bindE just]. destruct (container s x) as [c|] eqn:Ec.
      2: { cbn. exists (setResource s x (Some r)), [], []. split; [reflexivity|]. split; [reflexivity|].
           split; [left; split; [reflexivity|congruence]|]. left. auto. }
      destruct (g_ex M s G x c Ec) as (f0 & Hf0 & Hin). destruct (g_cont M s G _ _ _ Hf0 Hin) as [_ Hcode].
      destruct (g_typed M s G _ _ _ Hin) as [Ht _].
      destruct (containment_feature M W c f0 x Hf0 Ht) as [cf Hcf]. rewrite Hcode, Hcf.
      destruct (f_resolve cf).
      { cbn. exists (setResource s x (Some r)), [], []. split; [reflexivity|]. split; [reflexivity|].
        split; [left; split; [reflexivity|congruence]|]. left. auto. }
      destruct (removeFromContainerE_leaves s s x G eq_refl eq_refl) as (s1 & e1 & -> & C1 & F1 & R1 & _ & L); [auto|].
      cbn [bindE]. rewrite basicSetContainerE_none. cbn [bindE just app]. rewrite !app_nil_r.
      exists (setResource (setContainer s1 x None (-1)) x (Some r)), e1, []. split; [reflexivity|].
      cbn. rewrite C1, R1. split; [reflexivity|]. split; [left; split; [reflexivity|congruence]|]. right. auto.
  Qed.

  Lemma foldE_setres_rem r R : forall s K, GInv s -> RInv (view s r K) -> NoDup R -> incl R K ->
    exists s' K', foldE (fun s x => eSetResourceE M req s x None) R s = Some (s', [])
      /\ GInv s' /\ RInv (view s' r K') /\ (forall y, In y K' <-> In y K /\ ~ In y R)
      /\ (forall y, In y R -> internalResource s' y = None) /\ (forall y, ~ In y R -> internalResource s' y = internalResource s y)
      /\ container s' = container s /\ slot s' = slot s.
  Proof.
    induction R as [|x R IH]; intros s K G Rv Hnd Hi; cbn [foldE].
    { exists s, K. split; [reflexivity|]. split; [assumption|]. split; [assumption|]. split; [cbn; tauto|]. split; [intros y []|]. auto. }
    inversion Hnd as [|? ? Hx Hnd']; subst. assert (HxV : In x K) by (apply Hi; now left).
    pose proof (eSetResourceE_rem s r K x Rv HxV) as Ec.
    destruct (setres_rem M s r K x G Rv HxV) as (s1 & E1 & _ & _ & G1 & R1).
    assert (s1 = setResource s x None).
    { pose proof (eSetResource_erase M req s x None) as E. rewrite Ec, E1 in E. cbn in E. congruence. }
    subst s1. rewrite Ec. cbn [bindE].
    destruct (IH (setResource s x None) (rm x K) G1 R1 Hnd') as (s' & V' & E & G' & R' & HV & H1 & H2 & H3 & H4).
    { intros y Hy. apply rm_in. split; [apply Hi; now right|]. intros ->. contradiction. }
    exists s', V'. rewrite E. split; [reflexivity|]. split; [assumption|]. split; [assumption|]. split.
    { intro y. rewrite HV, rm_in. cbn. split; [intros [[? ?] ?]; split; [assumption|intros [|]; congruence]|intros [? N]; repeat split; auto]. }
    split.
    { intros y [<-|Hy]; [|auto]. rewrite H2 by assumption. cbn. now rewrite upd_eq. }
    split; [|split; assumption].
    intros y Hy. rewrite H2 by (intro; apply Hy; now right). cbn. apply upd_ne. intros ->. apply Hy. now left.
  Qed.
  Lemma foldE_setres_free r A : forall s K, GInv s -> RInv (view s r K) -> NoDup A ->
    (forall x, In x A -> ~ In x K) -> (forall x, In x A -> free s x) ->
    exists s', foldE (fun s x => eSetResourceE M req s x (Some r)) A s = Some (s', [])
      /\ (forall y, In y A -> internalResource s' y = Some r) /\ (forall y, ~ In y A -> internalResource s' y = internalResource s y)
      /\ forall y, container s' y = container s y.
  Proof.
    induction A as [|x A IH]; intros s K G Rv Hnd HK Hfr; cbn [foldE].
    { exists s. split; [reflexivity|]. split; [intros y []|]. auto. }
    inversion Hnd as [|? ? Hx Hnd']; subst. pose proof (HK x (or_introl eq_refl)) as HxK.
    destruct (eSetResourceE_add s r K x G Rv HxK) as (s1 & e1 & e2 & Ec & C1 & L1 & H1).
    destruct (Hfr x (or_introl eq_refl)) as [Fc Fr]. apply leftR_none in L1; [|assumption]. subst e2.
    assert (e1 = [] /\ forall y, container s1 y = container s y) as [-> Hres].
    { destruct H1 as [[-> ->]|[L2 [_ ->]]]; [auto|]. apply leftC_none in L2; [|assumption]. split; [assumption|].
      intro y. unfold upd. destruct (Nat.eqb_spec y x); congruence. }
    destruct (setres_add M W s r K x G Rv HxK) as (s1' & E1 & _ & _ & G1 & R1).
    assert (s1' = s1).
    { pose proof (eSetResource_erase M req s x (Some r)) as E. rewrite Ec, E1 in E. cbn in E. congruence. }
    subst s1'. rewrite Ec. cbn [bindE app].
    destruct (IH s1 (K ++ [x]) G1 R1 Hnd') as (s' & E & H2 & H3 & H4).
    { intros y Hy Hin. apply in_app_or in Hin as [Hin|[<-|[]]]; [|contradiction]. apply (HK y); [now right|assumption]. }
    { intros y Hy. destruct (Hfr y (or_intror Hy)) as [? ?]. split; [now rewrite Hres|]. rewrite C1, upd_ne; [assumption|]. congruence. }
    exists s'. rewrite E. split; [reflexivity|]. split.
    { intros y [<-|Hy]; [|auto]. rewrite H3 by assumption. rewrite C1. now rewrite upd_eq. }
    split.
    { intros y Hy. rewrite H3 by (intro; apply Hy; now right). rewrite C1. apply upd_ne. intros ->. apply Hy. now left. }
    intro y. now rewrite H4.
  Qed.
End Ops.
