From Coq Require Import Permutation.
From Verif Require Import Base ListModel ListSpec ListProofs NotifyModel NotifyProofs CallbackProofs
  GraphModel GraphSpec GraphProofs.

Lemma upd_eq {B} (g : nat -> B) k v : upd g k v k = v.
Proof. unfold upd. now rewrite Nat.eqb_refl. Qed.
Lemma upd_ne {B} (g : nat -> B) k v j : j <> k -> upd g k v j = g j.
Proof. unfold upd. intro H. destruct (Nat.eqb_spec j k); [contradiction|reflexivity]. Qed.

Lemma slot_eq s o f l : slot (setSlot s o f l) o f = l.
Proof. cbn. now rewrite !upd_eq. Qed.
Lemma slot_ne s o f l a k : a <> o \/ k <> f -> slot (setSlot s o f l) a k = slot s a k.
Proof.
  intro H. cbn. unfold upd. destruct (Nat.eqb_spec a o) as [->|]; [|reflexivity].
  destruct (Nat.eqb_spec k f) as [->|]; [|reflexivity]. destruct H; contradiction.
Qed.
Lemma slot_dec (a k o f : nat) : (a = o /\ k = f) \/ (a <> o \/ k <> f).
Proof. lia. Qed.

Definition minus (x : nat) (l l' : list nat) : Prop := NoDup l' /\ forall y, In y l' <-> In y l /\ y <> x.
Definition plus (x : nat) (l l' : list nat) : Prop := NoDup l' /\ forall y, In y l' <-> In y l \/ y = x.

Lemma minus_rm x l : NoDup l -> minus x l (rm x l).
Proof. intro H. split; [now apply rm_NoDup|]. intro. apply rm_in. Qed.
Lemma minus_single x l : (length l <= 1)%nat -> In x l -> minus x l [].
Proof.
  intros H Hx. split; [constructor|]. intro y. destruct l as [|a [|b l]]; cbn in *; lia.
Qed.
Lemma plus_snoc x l : NoDup l -> ~ In x l -> plus x l (l ++ [x]).
Proof.
  intros H Hx. split.
  - apply NoDup_app_iff. split; [assumption|]. split; [repeat constructor; tauto|].
    intros y Hy [<-|[]]. contradiction.
  - intro y. rewrite in_app_iff. cbn. intuition.
Qed.
Lemma plus_one x : plus x [] [x].
Proof. split; [repeat constructor; tauto|]. cbn. intuition. Qed.

Lemma incl_short (l l' : list nat) : NoDup l' -> (forall y, In y l' -> In y l) -> (length l <= 1)%nat -> (length l' <= 1)%nat.
Proof. intros H Hi Hl. pose proof (NoDup_incl_length H Hi). lia. Qed.

Section Inv.
  Context (M : metamodel) (W : wf_metamodel M).
  Notation f_many := (f_many M). Notation f_cont := (f_cont M). Notation f_opp := (f_opp M).
  Notation f_id := (f_id M). Notation f_resolve := (f_resolve M). Notation features := (features M).
  Notation isContainer := (isContainer M). Notation feature_at := (feature_at M).
  Notation getFeatureID := (getFeatureID M). Notation link_typed := (link_typed M).

  Definition code (f : feature) : Z := match f_opp f with Some g => f_id g | None => -1 - f_id f end.

  Record GInv (s : state) : Prop := {
    g_typed : forall o f x, In x (slot s o f) -> link_typed o f x /\ isContainer f = false;
    g_nodup : forall o f, NoDup (slot s o f);
    g_single : forall o f, f_many f = false -> (length (slot s o f) <= 1)%nat;
    g_cont : forall o f x, f_cont f = true -> In x (slot s o f) ->
             container s x = Some o /\ containerFeatureID s x = code f;
    g_ex : forall x c, container s x = Some c -> exists f, f_cont f = true /\ In x (slot s c f);
    g_sym : forall o f x g, f_opp f = Some g -> f_cont f = false -> f_cont g = false ->
            In x (slot s o f) -> In o (slot s x g)
  }.

  Definition RInv (s : state) : Prop :=
    (forall x r, In x (contents s r) <-> internalResource s x = Some r) /\
    (forall r, NoDup (contents s r)) /\
    (forall r, loaded s r = ne (contents s r)) /\
    (forall x c r, container s x = Some c -> internalResource s x = Some r ->
       exists cf, eContainmentFeature M x c (containerFeatureID s x) = Some cf /\ f_resolve cf = true).

  (** ** features *)
  Lemma feat o f : In f (features o) -> feature_at o (f_id f) = Some f /\ getFeatureID o f = f_id f /\ 0 <= f_id f.
  Proof.
    intro H. destruct (wf_ids M W o f H) as [H0 H1]. split; [assumption|]. split; [|assumption].
    unfold GraphModel.getFeatureID. unfold GraphModel.feature_at, zget in H1.
    fold (f_id f) in *. destruct (Z.eqb_spec (f_id f) (-1)); [lia|].
    destruct (Z.ltb_spec (f_id f) 0); [lia|].
    destruct (nth_error_split _ _ H1) as (l1 & l2 & -> & E).
    rewrite <- E. rewrite skipn_app, skipn_all, Nat.sub_diag. cbn. now rewrite Nat.eqb_refl.
  Qed.
  Lemma id_inj o f g : In f (features o) -> In g (features o) -> f_id f = f_id g -> f = g.
  Proof. intros Hf Hg E. apply feat in Hf as [Hf _]. apply feat in Hg as [Hg _]. congruence. Qed.

  Lemma cont_not_container f : f_cont f = true -> isContainer f = false.
  Proof.
    intro H. unfold GraphModel.isContainer. destruct (GraphModel.f_opp M f) as [g|] eqn:E; [|reflexivity].
    now apply (wf_cont M W f g).
  Qed.
  Lemma opp_container f g : f_cont f = true -> f_opp f = Some g ->
    isContainer g = true /\ f_many g = false /\ f_cont g = false /\ f_opp g = Some f.
  Proof.
    intros H E. destruct (wf_cont M W f g H E) as [H1 H2]. destruct (wf_opp M W f g E) as [H3 _].
    unfold GraphModel.isContainer. rewrite H3. auto.
  Qed.
  Lemma noncont_pair f g : f_opp f = Some g -> f_cont f = false -> isContainer f = false ->
    f_opp g = Some f /\ f_cont g = false /\ isContainer g = false /\ g <> f.
  Proof.
    intros E H Hc. destruct (wf_opp M W f g E) as [H3 Hne]. unfold GraphModel.isContainer in *.
    rewrite E in Hc. rewrite H3. auto.
  Qed.

  Lemma code_inj o f f' x : f_cont f = true -> f_cont f' = true ->
    link_typed o f x -> link_typed o f' x -> code f = code f' -> f = f'.
  Proof.
    intros Hf Hf' [T1 T2] [T1' T2'] E. unfold code in E.
    destruct (f_opp f) as [g|] eqn:Eg; destruct (f_opp f') as [g'|] eqn:Eg'.
    - assert (g = g') by (apply (id_inj x); auto). subst g'.
      apply (wf_opp M W) in Eg as [Eg _]. apply (wf_opp M W) in Eg' as [Eg' _]. congruence.
    - specialize (T2 _ eq_refl). apply feat in T2 as (_ & _ & ?). apply feat in T1' as (_ & _ & ?). lia.
    - specialize (T2' _ eq_refl). apply feat in T2' as (_ & _ & ?). apply feat in T1 as (_ & _ & ?). lia.
    - apply (id_inj o); auto. lia.
  Qed.

  Lemma place_unique s : GInv s -> forall x o f o' f', f_cont f = true -> f_cont f' = true ->
    In x (slot s o f) -> In x (slot s o' f') -> o' = o /\ f' = f.
  Proof.
    intros G x o f o' f' Hf Hf' Hx Hx'.
    destruct (g_cont s G _ _ _ Hf Hx) as [C1 C2]. destruct (g_cont s G _ _ _ Hf' Hx') as [C1' C2'].
    assert (o' = o) by congruence. subst o'. split; [reflexivity|].
    apply (code_inj o f' f x); auto; try (now apply (g_typed s G)); congruence.
  Qed.

  Lemma GInv_ext s s' : GInv s -> (forall x, container s' x = container s x) ->
    (forall x, containerFeatureID s' x = containerFeatureID s x) ->
    (forall o f, slot s' o f = slot s o f) -> GInv s'.
  Proof.
    intros G H1 H2 H3. constructor.
    - intros o f x. rewrite H3. apply (g_typed s G).
    - intros o f. rewrite H3. apply (g_nodup s G).
    - intros o f. rewrite H3. apply (g_single s G).
    - intros o f x. rewrite H1, H2, H3. apply (g_cont s G).
    - intros x c. rewrite H1. intro H. destruct (g_ex s G _ _ H) as (f & Hf & Hx). exists f. now rewrite H3.
    - intros o f x g. rewrite !H3. apply (g_sym s G).
  Qed.

  (** ** the four elementary edits *)
  Lemma unlink_cont s s' o f x : GInv s -> f_cont f = true -> In x (slot s o f) ->
    (forall y, y <> x -> container s' y = container s y /\ containerFeatureID s' y = containerFeatureID s y) ->
    container s' x = None ->
    (forall a k, a <> o \/ k <> f -> slot s' a k = slot s a k) ->
    minus x (slot s o f) (slot s' o f) ->
    GInv s'.
  Proof.
    intros G Hf Hx Hc Hcx Hs [Hnd Hl].
    assert (Hsub : forall a k y, In y (slot s' a k) -> In y (slot s a k)).
    { intros a k y Hy. destruct (slot_dec a k o f) as [[-> ->]|D]; [apply Hl in Hy; tauto|].
      now rewrite Hs in Hy. }
    assert (Hsup : forall a k y, In y (slot s a k) -> y <> x -> In y (slot s' a k)).
    { intros a k y Hy Hne. destruct (slot_dec a k o f) as [[-> ->]|D]; [now apply Hl|].
      now rewrite Hs. }
    assert (Hno : forall a k y, f_cont k = true -> In y (slot s' a k) -> y <> x).
    { intros a k y Hk Hy ->. pose proof (Hsub _ _ _ Hy) as Hy'.
      destruct (place_unique s G x o f a k Hf Hk Hx Hy') as [-> ->]. apply Hl in Hy. tauto. }
    constructor.
    - intros a k y Hy. apply (g_typed s G). auto.
    - intros a k. destruct (slot_dec a k o f) as [[-> ->]|D]; [assumption|].
      rewrite Hs by assumption. apply (g_nodup s G).
    - intros a k Hk. destruct (slot_dec a k o f) as [[-> ->]|D].
      + apply (incl_short (slot s o f)); [assumption|apply Hsub|now apply (g_single s G)].
      + rewrite Hs by assumption. now apply (g_single s G).
    - intros a k y Hk Hy. pose proof (Hno _ _ _ Hk Hy) as Hne. destruct (Hc y Hne) as [-> ->].
      apply (g_cont s G); auto.
    - intros y c Hy. assert (Hne : y <> x) by congruence. destruct (Hc y Hne) as [E _]. rewrite E in Hy.
      destruct (g_ex s G _ _ Hy) as (k & Hk & Hin). exists k. split; auto.
    - intros a k y g Hg Hk Hgc Hy. assert (k <> f) by congruence. assert (g <> f) by congruence.
      rewrite Hs in Hy |- * by auto. eapply (g_sym s G); eauto.
  Qed.

  Lemma link_cont s s' o f x : GInv s -> f_cont f = true -> container s x = None -> link_typed o f x ->
    (f_many f = false -> slot s o f = []) ->
    (forall y, y <> x -> container s' y = container s y /\ containerFeatureID s' y = containerFeatureID s y) ->
    container s' x = Some o -> containerFeatureID s' x = code f ->
    (forall a k, a <> o \/ k <> f -> slot s' a k = slot s a k) ->
    plus x (slot s o f) (slot s' o f) ->
    GInv s'.
  Proof.
    intros G Hf Hx0 Ht Hm Hc Hcx Hcf Hs [Hnd Hl].
    assert (Hno : forall a k, f_cont k = true -> ~ In x (slot s a k)).
    { intros a k Hk Hy. apply (g_cont s G) in Hy as [E _]; [congruence|assumption]. }
    constructor.
    - intros a k y Hy. destruct (slot_dec a k o f) as [[-> ->]|D].
      + apply Hl in Hy as [Hy| ->]; [now apply (g_typed s G)|]. split; [assumption|]. now apply cont_not_container.
      + rewrite Hs in Hy by assumption. now apply (g_typed s G).
    - intros a k. destruct (slot_dec a k o f) as [[-> ->]|D]; [assumption|].
      rewrite Hs by assumption. apply (g_nodup s G).
    - intros a k Hk. destruct (slot_dec a k o f) as [[-> ->]|D].
      + apply (incl_short [x]); [assumption| |cbn; lia].
        intros y Hy. apply Hl in Hy as [Hy| ->]; [rewrite (Hm Hk) in Hy; destruct Hy|now left].
      + rewrite Hs by assumption. now apply (g_single s G).
    - intros a k y Hk Hy. destruct (slot_dec a k o f) as [[-> ->]|D].
      + apply Hl in Hy as [Hy| ->]; [|auto].
        assert (Hne : y <> x) by (intros ->; exact (Hno _ _ Hk Hy)).
        destruct (Hc y Hne) as [-> ->]. now apply (g_cont s G).
      + rewrite Hs in Hy by assumption.
        assert (Hne : y <> x) by (intros ->; exact (Hno _ _ Hk Hy)).
        destruct (Hc y Hne) as [-> ->]. now apply (g_cont s G).
    - intros y c Hy. destruct (Nat.eq_dec y x) as [->|Hne].
      + rewrite Hcx in Hy. injection Hy as <-. exists f. split; [assumption|]. apply Hl. now right.
      + destruct (Hc y Hne) as [E _]. rewrite E in Hy.
        destruct (g_ex s G _ _ Hy) as (k & Hk & Hin). exists k. split; [assumption|].
        destruct (slot_dec c k o f) as [[-> ->]|D]; [apply Hl; now left|now rewrite Hs].
    - intros a k y g Hg Hk Hgc Hy. assert (k <> f) by congruence. assert (g <> f) by congruence.
      rewrite Hs in Hy |- * by auto. eapply (g_sym s G); eauto.
  Qed.

  Lemma unlink_bi s s' o f x g : GInv s -> f_opp f = Some g -> f_cont f = false -> isContainer f = false ->
    In x (slot s o f) ->
    (forall y, container s' y = container s y /\ containerFeatureID s' y = containerFeatureID s y) ->
    (forall a k, a <> o \/ k <> f -> a <> x \/ k <> g -> slot s' a k = slot s a k) ->
    minus x (slot s o f) (slot s' o f) -> minus o (slot s x g) (slot s' x g) ->
    GInv s'.
  Proof.
    intros G Hg Hf Hcf Hx Hc Hs [Hnd Hl] [Hnd' Hl'].
    destruct (noncont_pair f g Hg Hf Hcf) as (Hgf & Hgc & Hcg & Hne).
    assert (Hcase : forall a k, (a = o /\ k = f) \/ (a = x /\ k = g)
              \/ ((a <> o \/ k <> f) /\ (a <> x \/ k <> g))) by (intros; lia).
    assert (Hsub : forall a k y, In y (slot s' a k) -> In y (slot s a k)).
    { intros a k y Hy. destruct (Hcase a k) as [[-> ->]|[[-> ->]|[D1 D2]]];
        [apply Hl in Hy; tauto|apply Hl' in Hy; tauto|now rewrite Hs in Hy]. }
    assert (Hck : forall a k, f_cont k = true -> slot s' a k = slot s a k).
    { intros a k Hk. apply Hs; right; congruence. }
    constructor.
    - intros a k y Hy. apply (g_typed s G). auto.
    - intros a k. destruct (Hcase a k) as [[-> ->]|[[-> ->]|[D1 D2]]]; [assumption|assumption|].
      rewrite Hs by assumption. apply (g_nodup s G).
    - intros a k Hk. assert (ND : NoDup (slot s' a k)).
      { destruct (Hcase a k) as [[-> ->]|[[-> ->]|[D1 D2]]]; [assumption|assumption|].
        rewrite Hs by assumption. apply (g_nodup s G). }
      apply (incl_short (slot s a k)); [assumption|apply Hsub|now apply (g_single s G)].
    - intros a k y Hk Hy. destruct (Hc y) as [-> ->]. apply (g_cont s G); auto.
    - intros y c Hy. destruct (Hc y) as [E _]. rewrite E in Hy.
      destruct (g_ex s G _ _ Hy) as (k & Hk & Hin). exists k. split; [assumption|]. now rewrite Hck.
    - intros a k y g2 Hg2 Hk Hgc2 Hy.
      pose proof (g_sym s G a k y g2 Hg2 Hk Hgc2 (Hsub _ _ _ Hy)) as Hin.
      destruct (wf_opp M W k g2 Hg2) as [Hg2k _].
      destruct (Hcase y g2) as [[-> ->]|[[-> ->]|[D1 D2]]].
      + apply Hl. split; [assumption|]. intros ->. rewrite Hg in Hg2k. injection Hg2k as <-.
        apply Hl' in Hy. tauto.
      + apply Hl'. split; [assumption|]. intros ->. rewrite Hgf in Hg2k. injection Hg2k as <-.
        apply Hl in Hy. tauto.
      + now rewrite Hs.
  Qed.

  Lemma link_bi s s' o f x g : GInv s -> f_opp f = Some g -> f_cont f = false -> isContainer f = false ->
    link_typed o f x ->
    (f_many f = false -> slot s o f = []) -> (f_many g = false -> slot s x g = []) ->
    (forall y, container s' y = container s y /\ containerFeatureID s' y = containerFeatureID s y) ->
    (forall a k, a <> o \/ k <> f -> a <> x \/ k <> g -> slot s' a k = slot s a k) ->
    plus x (slot s o f) (slot s' o f) -> plus o (slot s x g) (slot s' x g) ->
    GInv s'.
  Proof.
    intros G Hg Hf Hcf Ht Hm1 Hm2 Hc Hs [Hnd Hl] [Hnd' Hl'].
    destruct (noncont_pair f g Hg Hf Hcf) as (Hgf & Hgc & Hcg & Hne).
    assert (Hcase : forall a k, (a = o /\ k = f) \/ (a = x /\ k = g)
              \/ ((a <> o \/ k <> f) /\ (a <> x \/ k <> g))) by (intros; lia).
    assert (Hsup : forall a k y, In y (slot s a k) -> In y (slot s' a k)).
    { intros a k y Hy. destruct (Hcase a k) as [[-> ->]|[[-> ->]|[D1 D2]]];
        [apply Hl; now left|apply Hl'; now left|now rewrite Hs]. }
    assert (Hck : forall a k, f_cont k = true -> slot s' a k = slot s a k).
    { intros a k Hk. apply Hs; right; congruence. }
    constructor.
    - intros a k y Hy. destruct (Hcase a k) as [[-> ->]|[[-> ->]|[D1 D2]]].
      + apply Hl in Hy as [Hy| ->]; [now apply (g_typed s G)|auto].
      + apply Hl' in Hy as [Hy| ->]; [now apply (g_typed s G)|]. split; [|assumption].
        destruct Ht as [T1 T2]. split; [now apply T2|]. intros g' Hg'. rewrite Hgf in Hg'. injection Hg' as <-. assumption.
      + rewrite Hs in Hy by assumption. now apply (g_typed s G).
    - intros a k. destruct (Hcase a k) as [[-> ->]|[[-> ->]|[D1 D2]]]; [assumption|assumption|].
      rewrite Hs by assumption. apply (g_nodup s G).
    - intros a k Hk. destruct (Hcase a k) as [[-> ->]|[[-> ->]|[D1 D2]]].
      + apply (incl_short [x]); [assumption| |cbn; lia].
        intros y Hy. apply Hl in Hy as [Hy| ->]; [rewrite (Hm1 Hk) in Hy; destruct Hy|now left].
      + apply (incl_short [o]); [assumption| |cbn; lia].
        intros y Hy. apply Hl' in Hy as [Hy| ->]; [rewrite (Hm2 Hk) in Hy; destruct Hy|now left].
      + rewrite Hs by assumption. now apply (g_single s G).
    - intros a k y Hk Hy. destruct (Hc y) as [-> ->]. rewrite Hck in Hy by assumption. now apply (g_cont s G).
    - intros y c Hy. destruct (Hc y) as [E _]. rewrite E in Hy.
      destruct (g_ex s G _ _ Hy) as (k & Hk & Hin). exists k. split; [assumption|]. now rewrite Hck.
    - intros a k y g2 Hg2 Hk Hgc2 Hy.
      destruct (Hcase a k) as [[-> ->]|[[-> ->]|[D1 D2]]].
      + rewrite Hg in Hg2. injection Hg2 as <-.
        apply Hl in Hy as [Hy| ->]; [|apply Hl'; now right].
        apply Hsup. eapply (g_sym s G); eauto.
      + rewrite Hgf in Hg2. injection Hg2 as <-.
        apply Hl' in Hy as [Hy| ->]; [|apply Hl; now right].
        apply Hsup. eapply (g_sym s G); eauto.
      + rewrite Hs in Hy by assumption. apply Hsup. eapply (g_sym s G); eauto.
  Qed.

  Lemma plain_slot s s' o f : GInv s -> f_opp f = None -> f_cont f = false ->
    (forall y, container s' y = container s y /\ containerFeatureID s' y = containerFeatureID s y) ->
    (forall a k, a <> o \/ k <> f -> slot s' a k = slot s a k) ->
    NoDup (slot s' o f) -> (f_many f = false -> (length (slot s' o f) <= 1)%nat) ->
    (forall y, In y (slot s' o f) -> In f (features o)) ->
    GInv s'.
  Proof.
    intros G Ho Hf Hc Hs Hnd Hm Ht. constructor.
    - intros a k y Hy. destruct (slot_dec a k o f) as [[-> ->]|D].
      + split; [split|]; [eauto|congruence|]. unfold GraphModel.isContainer. now rewrite Ho.
      + rewrite Hs in Hy by assumption. now apply (g_typed s G).
    - intros a k. destruct (slot_dec a k o f) as [[-> ->]|D]; [assumption|].
      rewrite Hs by assumption. apply (g_nodup s G).
    - intros a k Hk. destruct (slot_dec a k o f) as [[-> ->]|D]; [auto|].
      rewrite Hs by assumption. now apply (g_single s G).
    - intros a k y Hk Hy. destruct (Hc y) as [-> ->].
      rewrite Hs in Hy by (right; congruence). now apply (g_cont s G).
    - intros y c Hy. destruct (Hc y) as [E _]. rewrite E in Hy.
      destruct (g_ex s G _ _ Hy) as (k & Hk & Hin). exists k. split; [assumption|].
      rewrite Hs by (right; congruence). assumption.
    - intros a k y g Hg Hk Hgc Hy. rewrite Hs in Hy by (right; congruence).
      destruct (wf_opp M W k g Hg) as [Hgk _]. rewrite Hs by (right; congruence).
      eapply (g_sym s G); eauto.
  Qed.

  (** ** what the calls compute *)
  Lemma contentsRemove_ok s r x : RInv s -> internalResource s x = Some r ->
    exists s1, contentsRemove s r x = Some s1
      /\ container s1 = container s /\ containerFeatureID s1 = containerFeatureID s
      /\ slot s1 = slot s /\ internalResource s1 = internalResource s
      /\ (forall q, q <> r -> contents s1 q = contents s q)
      /\ contents s1 r = rm x (contents s r)
      /\ (forall q, loaded s1 q = ne (contents s1 q)).
  Proof.
    intros (R1 & R2 & R3 & R4) Hr. unfold contentsRemove.
    destruct (removeWithNotification_ok (contents s r) x (R2 r)) as (cb & -> & Hcb & _).
    destruct Hcb as [i ->]; [now apply R1|]. cbn [obind]. eexists; split; [reflexivity|].
    cbn [contentsStages setLoaded setContents container containerFeatureID slot internalResource contents loaded].
    repeat (split; [reflexivity|]).
    split; [intros q Hq; now rewrite upd_ne|]. split; [now rewrite upd_eq|].
    intro q. unfold upd. destruct (Nat.eqb_spec q r) as [->|]; [|apply R3].
    cbn [fold_left didContents]. rewrite (R3 r), (ne_zlen (rm x _)).
    destruct (zlen (rm x (contents s r)) =? 0); [reflexivity|]. cbn.
    assert (Hin : In x (contents s r)) by now apply R1. destruct (contents s r); [destruct Hin|reflexivity].
  Qed.

  Lemma setContainer_RInv s x c id : RInv s ->
    (forall c' r, c = Some c' -> internalResource s x = Some r ->
       exists cf, eContainmentFeature M x c' id = Some cf /\ f_resolve cf = true) ->
    RInv (setContainer s x c id).
  Proof.
    intros (R1 & R2 & R3 & R4) H. split; [exact R1|]. split; [exact R2|]. split; [exact R3|].
    cbn. intros y c' r. unfold upd. destruct (Nat.eqb_spec y x) as [->|]; [apply H|apply R4].
  Qed.

  Lemma basicSetContainer_none s x id : basicSetContainer M s x None id = Some (setContainer s x None id).
  Proof. unfold basicSetContainer. now destruct (internalResource s x). Qed.

  Lemma basicSetContainer_some s x c id cf : RInv s -> eContainmentFeature M x c id = Some cf ->
    exists s1, basicSetContainer M s x (Some c) id = Some (setContainer s1 x (Some c) id)
      /\ container s1 = container s /\ containerFeatureID s1 = containerFeatureID s /\ slot s1 = slot s
      /\ RInv (setContainer s1 x (Some c) id).
  Proof.
    intros R Hcf. unfold basicSetContainer. rewrite Hcf.
    destruct (internalResource s x) as [r|] eqn:Er; cbn [obind].
    - destruct (GraphModel.f_resolve M cf) eqn:Ev; cbn [negb].
      + exists s. repeat (split; [reflexivity|]). apply setContainer_RInv; [assumption|].
        intros c' r' E _. injection E as <-. eauto.
      + destruct (contentsRemove_ok s r x R Er) as (s1 & -> & E1 & E2 & E3 & E4 & E5 & E6 & E7).
        cbn [obind]. eexists; split; [reflexivity|].
        cbn [setResource container containerFeatureID slot]. repeat (split; [assumption|]).
        destruct R as (R1 & R2 & R3 & R4).
        assert (Hcon : forall q y, In y (contents s1 q) <-> In y (contents s q) /\ y <> x).
        { intros q y. destruct (Nat.eq_dec q r) as [->|Hq].
          - rewrite E6. apply rm_in.
          - rewrite E5 by assumption. split; [|tauto]. intro Hy. split; [assumption|].
            intros ->. apply R1 in Hy. congruence. }
        split; [|split; [|split]]; cbn.
        * intros y q. rewrite Hcon, R1. rewrite E4. unfold upd.
          destruct (Nat.eqb_spec y x) as [->|]; intuition congruence.
        * intro q. destruct (Nat.eq_dec q r) as [->|Hq]; [rewrite E6; now apply rm_NoDup|].
          rewrite E5 by assumption. apply R2.
        * exact E7.
        * intros y c' q. unfold upd. rewrite E1, E2, E4.
          destruct (Nat.eqb_spec y x) as [->|]; [discriminate|apply R4].
    - exists s. repeat (split; [reflexivity|]). apply setContainer_RInv; [assumption|]. congruence.
  Qed.

  Lemma inverseRemove_slot s c k y : In k (features c) -> isContainer k = false ->
    NoDup (slot s c k) -> (f_many k = false -> (length (slot s c k) <= 1)%nat) -> In y (slot s c k) ->
    exists l', inverseRemove M s c y (f_id k) = Some (setSlot s c k l') /\ minus y (slot s c k) l'.
  Proof.
    intros Hk Hc Hnd Hm Hy. apply feat in Hk as (Hat & _ & H0).
    unfold inverseRemove. destruct (Z.geb_spec (f_id k) 0); [|lia].
    unfold basicInverseRemove. fold (feature_at c (f_id k)). rewrite Hat. cbn [obind].
    destruct (GraphModel.f_many M k) eqn:Em.
    - destruct (removeWithNotification_ok (slot s c k) y Hnd) as (cb & -> & _). cbn [obind].
      eexists; split; [reflexivity|]. now apply minus_rm.
    - fold (isContainer k). rewrite Hc. eexists; split; [reflexivity|]. apply minus_single; auto.
  Qed.

  (** EBasicRemoveFromContainer removes x from the slot that holds it *)
  Lemma removeFromContainer_ok s st x c : GInv st -> container st x = container s x ->
    containerFeatureID st x = containerFeatureID s x -> container s x = Some c ->
    exists f0, f_cont f0 = true /\ In x (slot st c f0)
      /\ (slot st c f0 = slot s c f0 ->
          exists l', removeFromContainer M s x = Some (setSlot s c f0 l') /\ minus x (slot s c f0) l').
  Proof.
    intros G E1 E2 Hc. destruct (g_ex st G x c) as (f0 & Hf0 & Hx); [congruence|].
    exists f0. split; [assumption|]. split; [assumption|]. intro Es.
    destruct (g_cont st G _ _ _ Hf0 Hx) as [_ Hcode].
    destruct (g_typed st G _ _ _ Hx) as [[T1 T2] Hnc].
    assert (Hgo : exists l', inverseRemove M s c x (f_id f0) = Some (setSlot s c f0 l') /\ minus x (slot s c f0) l').
    { apply inverseRemove_slot; auto; rewrite <- ?Es; [apply (g_nodup st G)|apply (g_single st G)|assumption]. }
    unfold removeFromContainer. rewrite Hc, <- E2, Hcode. unfold code in *.
    destruct (f_opp f0) as [g0|] eqn:Eg.
    - specialize (T2 _ eq_refl). apply feat in T2 as (Hat & _ & H0).
      destruct (Z.geb_spec (f_id g0) 0); [|lia]. fold (feature_at x (f_id g0)). rewrite Hat.
      destruct (wf_opp M W _ _ Eg) as [Eg' _]. unfold f_id in Eg'. rewrite Eg'. exact Hgo.
    - apply feat in T1 as (_ & _ & H0). destruct (Z.geb_spec (-1 - f_id f0) 0); [lia|].
      unfold BASE. replace (-1 - (-1 - f_id f0)) with (f_id f0) by lia. exact Hgo.
  Qed.

  (** ** inverseRemove and inverseAdd of the owner's list, with the slot seen through a view *)
  Lemma rem_ok s o f x V : GInv (setSlot s o f V) -> RInv s -> In x V ->
    exists s', listInverseRemove M s o f x = Some s' /\ slot s' o f = slot s o f
      /\ GInv (setSlot s' o f (rm x V)) /\ RInv s'.
  Proof.
    intros G R Hx.
    assert (HxV : In x (slot (setSlot s o f V) o f)) by now rewrite slot_eq.
    destruct (g_typed _ G _ _ _ HxV) as [[T1 T2] Hnc].
    pose proof (g_nodup _ G o f) as HndV. rewrite slot_eq in HndV.
    unfold listInverseRemove.
    destruct (GraphModel.f_cont M f) eqn:Ef.
    - (* containment *)
      assert (Hgo : forall id, exists s', Some (setContainer s x None id) = Some s' /\ slot s' o f = slot s o f
                /\ GInv (setSlot s' o f (rm x V)) /\ RInv s').
      { intro id. eexists; split; [reflexivity|]. split; [reflexivity|]. split.
        - apply (unlink_cont (setSlot s o f V) _ o f x G Ef HxV).
          + intros y Hy. cbn. now rewrite !upd_ne.
          + cbn. now rewrite upd_eq.
          + intros a k D. rewrite !slot_ne by assumption. reflexivity.
          + rewrite !slot_eq. now apply minus_rm.
        - apply setContainer_RInv; [assumption|]. discriminate. }
      destruct (GraphModel.f_opp M f) as [g|] eqn:Eg.
      + destruct (opp_container f g Ef Eg) as (Hgc & Hgm & _ & _).
        specialize (T2 _ eq_refl). apply feat in T2 as (Hat & Hid & H0).
        unfold inverseRemove. destruct (Z.geb_spec (f_id g) 0); [|lia].
        unfold basicInverseRemove. fold (feature_at x (f_id g)). rewrite Hat. cbn [obind].
        rewrite Hgm, Hgc, basicSetContainer_none. apply Hgo.
      + apply feat in T1 as (_ & _ & H0). unfold inverseRemove.
        destruct (Z.geb_spec (BASE - f_id f) 0); [unfold BASE in *; lia|].
        rewrite basicSetContainer_none. apply Hgo.
    - destruct (GraphModel.f_opp M f) as [g|] eqn:Eg.
      + (* bidirectional *)
        destruct (noncont_pair f g Eg Ef Hnc) as (Hgf & Hgc & Hcg & Hne).
        assert (Hin : In o (slot (setSlot s o f V) x g)) by (eapply (g_sym _ G); eauto).
        pose proof (g_nodup _ G x g) as Hnd. pose proof (g_single _ G x g) as Hsi.
        rewrite slot_ne in Hin, Hnd, Hsi by auto.
        destruct (inverseRemove_slot s x g o (T2 _ eq_refl) Hcg Hnd Hsi Hin) as (l' & -> & Hl').
        eexists; split; [reflexivity|]. split; [rewrite slot_ne by auto; reflexivity|]. split; [|exact R].
        apply (unlink_bi (setSlot s o f V) _ o f x g G Eg Ef Hnc HxV).
        * intro y. split; reflexivity.
        * intros a k D1 D2. rewrite !slot_ne by assumption. reflexivity.
        * rewrite !slot_eq. now apply minus_rm.
        * rewrite !(slot_ne _ o f) by auto. rewrite slot_eq. assumption.
      + (* plain *)
        eexists; split; [reflexivity|]. split; [reflexivity|]. split; [|exact R].
        apply (plain_slot (setSlot s o f V) _ o f G Eg Ef).
        * intro y. split; reflexivity.
        * intros a k D. rewrite !slot_ne by assumption. reflexivity.
        * rewrite slot_eq. now apply rm_NoDup.
        * intro Hm. rewrite slot_eq. pose proof (g_single _ G o f Hm) as HV. rewrite slot_eq in HV.
          apply (incl_short V); [now apply rm_NoDup| |assumption]. intros y Hy. apply rm_in in Hy. tauto.
        * auto.
  Qed.

  Lemma containment_feature o f x : f_cont f = true -> link_typed o f x ->
    exists cf, eContainmentFeature M x o (code f) = Some cf.
  Proof.
    intros Hf [T1 T2]. unfold eContainmentFeature, code, BASE.
    destruct (f_opp f) as [g|] eqn:Eg.
    - specialize (T2 _ eq_refl). apply feat in T2 as (Hat & _ & H0).
      destruct (Z.leb_spec (f_id g) (-1)); [lia|]. eauto.
    - apply feat in T1 as (Hat & _ & H0).
      destruct (Z.leb_spec (-1 - f_id f) (-1)); [|lia].
      replace (-1 - (-1 - f_id f)) with (f_id f) by lia. eauto.
  Qed.

  (** take x out of its present container, if any, then put it under o *)
  Lemma relink s o f x V : GInv (setSlot s o f V) -> RInv s -> f_cont f = true -> ~ In x V ->
    link_typed o f x -> (f_many f = false -> V = []) -> NoDup V ->
    exists s1 s', removeFromContainer M s x = Some s1
      /\ basicSetContainer M s1 x (Some o) (code f) = Some s' /\ slot s' o f = slot s o f
      /\ GInv (setSlot s' o f (V ++ [x])) /\ RInv s'.
  Proof.
    intros G R Hf Hx Ht Hm HndV.
    destruct (containment_feature o f x Hf Ht) as [cf Hcf].
    (* the graph once x is out of its container *)
    assert (Hout : exists s1, removeFromContainer M s x = Some s1 /\ slot s1 o f = slot s o f /\ RInv s1
              /\ container s1 = container s /\ containerFeatureID s1 = containerFeatureID s
              /\ GInv (setContainer (setSlot s1 o f V) x None 0)).
    { destruct (container s x) as [c|] eqn:Ec.
      - destruct (removeFromContainer_ok s (setSlot s o f V) x c G eq_refl eq_refl Ec)
          as (f0 & Hf0 & Hx0 & Hgo).
        assert (D : c <> o \/ f0 <> f).
        { destruct (slot_dec c f0 o f) as [[-> ->]|D]; [|assumption]. rewrite slot_eq in Hx0. contradiction. }
        rewrite slot_ne in Hgo by assumption. destruct (Hgo eq_refl) as (l' & -> & Hl').
        eexists; split; [reflexivity|]. split; [rewrite slot_ne by lia; reflexivity|].
        split; [exact R|]. split; [reflexivity|]. split; [reflexivity|].
        apply (unlink_cont (setSlot s o f V) _ c f0 x G Hf0 Hx0).
        + intros y Hy. cbn. now rewrite !upd_ne.
        + cbn. now rewrite upd_eq.
        + intros a k D'. change (slot (setSlot (setSlot s c f0 l') o f V) a k = slot (setSlot s o f V) a k).
          destruct (slot_dec a k o f) as [[-> ->]|D'']; [now rewrite !slot_eq|].
          rewrite !(slot_ne _ o f) by assumption. now rewrite slot_ne by assumption.
        + change (minus x (slot (setSlot s o f V) c f0) (slot (setSlot (setSlot s c f0 l') o f V) c f0)).
          rewrite !(slot_ne _ o f) by assumption. rewrite slot_eq. assumption.
      - exists s. split; [unfold removeFromContainer; now rewrite Ec|].
        split; [reflexivity|]. split; [exact R|]. split; [reflexivity|]. split; [reflexivity|].
        constructor.
        + exact (g_typed _ G).
        + exact (g_nodup _ G).
        + exact (g_single _ G).
        + intros a k y Hk Hy. destruct (g_cont _ G a k y Hk Hy) as [C1 C2]. cbn in *.
          assert (Hne : y <> x) by congruence. now rewrite !upd_ne.
        + intros y c. cbn. unfold upd. destruct (Nat.eqb_spec y x); [discriminate|]. apply (g_ex _ G).
        + exact (g_sym _ G). }
    destruct Hout as (s1 & -> & Hs1 & R1 & Ec1 & Ef1 & G1).
    destruct (basicSetContainer_some s1 x o (code f) cf R1 Hcf) as (s2 & Eb & E1 & E2 & E3 & R2).
    exists s1. eexists. split; [reflexivity|]. split; [exact Eb|].
    split; [cbn; rewrite E3; exact Hs1|]. split; [|exact R2].
    apply (link_cont _ _ o f x G1 Hf); auto.
    - cbn. now rewrite upd_eq.
    - intro Hm'. change (slot (setSlot s1 o f V) o f = []). rewrite slot_eq. auto.
    - intros y Hy. cbn. rewrite !upd_ne by assumption. now rewrite E1, E2.
    - cbn. now rewrite upd_eq.
    - cbn. now rewrite upd_eq.
    - intros a k D. rewrite slot_ne by assumption.
      change (slot s2 a k = slot (setSlot s1 o f V) a k). rewrite slot_ne by assumption. now rewrite E3.
    - rewrite slot_eq. change (plus x (slot (setSlot s1 o f V) o f) (V ++ [x])). rewrite slot_eq.
      now apply plus_snoc.
  Qed.

  Lemma add_ok s o f x V : GInv (setSlot s o f V) -> RInv s -> ~ In x V ->
    link_typed o f x -> isContainer f = false -> (f_many f = false -> V = []) ->
    exists s', listInverseAdd M s o f x = Some s' /\ slot s' o f = slot s o f
      /\ GInv (setSlot s' o f (V ++ [x])) /\ RInv s'.
  Proof.
    intros G R Hx Ht Hnc Hm. pose proof (proj1 Ht) as T1.
    pose proof (g_nodup _ G o f) as HndV. rewrite slot_eq in HndV.
    unfold listInverseAdd.
    destruct (GraphModel.f_cont M f) eqn:Ef.
    - (* containment *)
      destruct (relink s o f x V G R Ef Hx Ht Hm HndV) as (s1 & s' & Er & Eb & Hgo).
      destruct (GraphModel.f_opp M f) as [g|] eqn:Eg.
      + destruct (opp_container f g Ef Eg) as (Hgc & Hgm & _ & _).
        pose proof (proj2 Ht _ Eg) as T2. apply feat in T2 as (Hat & Hid & H0).
        unfold inverseAdd. destruct (Z.geb_spec (f_id g) 0); [|lia].
        unfold basicInverseAdd. fold (feature_at x (f_id g)). rewrite Hat. cbn [obind].
        rewrite Hgm, Hgc. fold (getFeatureID x g). rewrite Hid, Er. cbn [obind].
        unfold code in Eb. rewrite Eg in Eb. rewrite Eb. eauto.
      + apply feat in T1 as (_ & _ & H0). unfold inverseAdd.
        destruct (Z.geb_spec (BASE - f_id f) 0); [unfold BASE in *; lia|].
        rewrite Er. cbn [obind]. unfold code in Eb. rewrite Eg in Eb. unfold BASE. rewrite Eb. eauto.
    - destruct (GraphModel.f_opp M f) as [g|] eqn:Eg.
      + (* bidirectional *)
        destruct (noncont_pair f g Eg Ef Hnc) as (Hgf & Hgc & Hcg & Hne).
        pose proof (proj2 Ht _ Eg) as Tg. pose proof Tg as Tg'. apply feat in Tg' as (Hat & _ & H0).
        unfold inverseAdd. destruct (Z.geb_spec (f_id g) 0); [|lia].
        unfold basicInverseAdd. fold (feature_at x (f_id g)). rewrite Hat. cbn [obind].
        assert (Hno : ~ In o (slot s x g)).
        { intro Hin. apply Hx. assert (Hin' : In o (slot (setSlot s o f V) x g)) by (rewrite slot_ne by auto; assumption).
          eapply (g_sym _ G) in Hin'; eauto. now rewrite slot_eq in Hin'. }
        pose proof (g_nodup _ G x g) as Hnd. rewrite slot_ne in Hnd by auto.
        destruct (GraphModel.f_many M g) eqn:Em.
        * cbn [doAdd obind]. eexists; split; [reflexivity|].
          split; [rewrite slot_ne by auto; reflexivity|]. split; [|exact R].
          apply (link_bi (setSlot s o f V) _ o f x g G Eg Ef Hnc Ht).
          -- rewrite slot_eq. assumption.
          -- congruence.
          -- intro y. split; reflexivity.
          -- intros a k D1 D2. rewrite !slot_ne by assumption. reflexivity.
          -- rewrite !slot_eq. now apply plus_snoc.
          -- rewrite !(slot_ne _ o f) by auto. rewrite slot_eq. now apply plus_snoc.
        * fold (isContainer g). rewrite Hcg.
          pose proof (g_single _ G x g Em) as Hsi. rewrite slot_ne in Hsi by auto.
          destruct (slot s x g) as [|y [|z l]] eqn:Es; [| |cbn in Hsi; lia].
          -- cbn [obind]. eexists; split; [reflexivity|].
             split; [rewrite slot_ne by auto; reflexivity|]. split; [|exact R].
             apply (link_bi (setSlot s o f V) _ o f x g G Eg Ef Hnc Ht).
             ++ rewrite slot_eq. assumption.
             ++ intros _. rewrite slot_ne by auto. assumption.
             ++ intro y. split; reflexivity.
             ++ intros a k D1 D2. rewrite !slot_ne by assumption. reflexivity.
             ++ rewrite !slot_eq. now apply plus_snoc.
             ++ rewrite !(slot_ne _ o f) by auto. rewrite slot_eq, Es. apply plus_one.
          -- (* the object that x referred to loses x *)
             assert (Hy : In y (slot (setSlot s o f V) x g)) by (rewrite slot_ne by auto; rewrite Es; now left).
             assert (Hyo : y <> o) by (intros ->; apply Hno; now left).
             pose proof (g_sym _ G x g y f Hgf Hgc Ef Hy) as Hxy.
             destruct (g_typed _ G _ _ _ Hxy) as [[Ty _] _].
             pose proof (g_nodup _ G y f) as Hndy. pose proof (g_single _ G y f) as Hsy.
             rewrite slot_ne in Hxy, Hndy, Hsy by auto.
             rewrite Hgc, Hgf. fold (getFeatureID y f).
             pose proof Ty as Ty'. apply feat in Ty' as (_ & -> & _).
             destruct (inverseRemove_slot s y f x Ty Hnc Hndy Hsy Hxy) as (l' & -> & Hl').
             cbn [obind]. eexists; split; [reflexivity|].
             split; [rewrite (slot_ne _ x g) by auto; rewrite slot_ne by auto; reflexivity|]. split; [|exact R].
             assert (Gm : GInv (setSlot (setSlot (setSlot s o f V) y f l') x g [])).
             { apply (unlink_bi (setSlot s o f V) _ y f x g G Eg Ef Hnc).
               - rewrite slot_ne by auto. assumption.
               - intro z. split; reflexivity.
               - intros a k D1 D2. rewrite (slot_ne _ x g) by assumption. now rewrite (slot_ne _ y f) by assumption.
               - rewrite (slot_ne _ x g) by auto. rewrite slot_eq. rewrite slot_ne by auto. assumption.
               - rewrite slot_eq. rewrite slot_ne by auto. rewrite Es. apply minus_single; [cbn; lia|now left]. }
             apply (link_bi _ _ o f x g Gm Eg Ef Hnc Ht).
             ++ intro Hm'. rewrite (slot_ne _ x g) by auto. rewrite (slot_ne _ y f) by auto. rewrite slot_eq. auto.
             ++ intros _. now rewrite slot_eq.
             ++ intro z. split; reflexivity.
             ++ intros a k D1 D2. rewrite (slot_ne _ o f) by assumption. rewrite !(slot_ne _ x g) by assumption.
                destruct (slot_dec a k y f) as [[-> ->]|D3]; [now rewrite !slot_eq|].
                rewrite !(slot_ne _ y f) by assumption. now rewrite slot_ne by assumption.
             ++ rewrite slot_eq. rewrite (slot_ne _ x g) by auto. rewrite (slot_ne _ y f) by auto.
                rewrite slot_eq. now apply plus_snoc.
             ++ rewrite slot_eq. rewrite (slot_ne _ o f) by auto. rewrite slot_eq. apply plus_one.
      + (* plain *)
        eexists; split; [reflexivity|]. split; [reflexivity|]. split; [|exact R].
        apply (plain_slot (setSlot s o f V) _ o f G Eg Ef).
        * intro y. split; reflexivity.
        * intros a k D. rewrite !slot_ne by assumption. reflexivity.
        * rewrite slot_eq. now apply plus_snoc.
        * intro Hm'. rewrite slot_eq, (Hm Hm'). cbn. lia.
        * auto.
  Qed.
End Inv.
