From Coq Require Import Permutation.
From Verif Require Import Base ListModel ListSpec ListProofs NotifyModel NotifyProofs CallbackProofs
  GraphModel GraphSpec GraphProofs GraphInv GraphSteps GraphAcyclic AdapterModel AdapterErase AdapterSpec AdapterWalk AdapterDispatch AdapterSummary AdapterEvents AdapterOps.

Lemma added_calm s data p st R Ad : effect_good data p st R Ad -> calm_args s data p ->
  Ad = [] \/ (exists x, Ad = [x]) \/ forall x, In x Ad -> free s x.
Proof.
  intros (_ & _ & Hnd & Hd & Harg) Hc.
  assert (Ha : forall x, In x Ad -> In x (op_args p)).
  { intros x Hx. destruct (Harg x Hx) as [?|H]; [assumption|]. destruct (Hd x Hx H). }
  assert (One : forall e, (forall x, In x Ad -> x = e) -> Ad = [] \/ (exists x, Ad = [x]) \/ forall x, In x Ad -> free s x).
  { intros e He. destruct Ad as [|a [|b l]]; [auto|right; left; eauto|]. exfalso. inversion Hnd as [|? ? Hn _]; subst.
    apply Hn. left. rewrite (He a), (He b) by (cbn; auto). reflexivity. }
  assert (Non : op_args p = [] -> Ad = []).
  { intro E. destruct Ad as [|a l]; [reflexivity|]. specialize (Ha a (or_introl eq_refl)). rewrite E in Ha. destruct Ha. }
  destruct p; cbn [op_args calm_args] in *; try (left; now apply Non).
  - apply (One e). intros x Hx. destruct (Ha x Hx) as [<-|[]]. reflexivity.
  - destruct c as [l|]; [|left; now apply Non]. right. right. intros x Hx. destruct (Hc x (Ha x Hx)) as [H|H]; [destruct (Hd x Hx H)|assumption].
  - apply (One e). intros x Hx. destruct (Ha x Hx) as [<-|[]]. reflexivity.
  - destruct c as [l|]; [|left; now apply Non]. right. right. intros x Hx. destruct (Hc x (Ha x Hx)) as [H|H]; [destruct (Hd x Hx H)|assumption].
  - apply (One e). intros x Hx. destruct (Ha x Hx) as [<-|[]]. reflexivity.
Qed.

Section Calls.
  Context (M : metamodel) (W : wf_metamodel M) (A0 : flags) (req : notifier -> bool).
  Context (Hreq : forall n, A0 n = true -> req n = true).
  Notation f_many := (f_many M). Notation f_cont := (f_cont M). Notation f_opp := (f_opp M).
  Notation f_id := (f_id M). Notation f_resolve := (f_resolve M). Notation features := (features M).
  Notation isContainer := (isContainer M). Notation feature_at := (feature_at M).
  Notation getFeatureID := (getFeatureID M). Notation link_typed := (link_typed M).
  Notation GInv := (GInv M). Notation RInv := (RInv M). Notation code := (code M).
  Notation leftC := (leftC M req). Notation leftR := (leftR req).

  Definition apart (es : list event) : Prop := ForallOrdPairs (fun m e => same_place m e = false) es.
  Definition accounted (s0 s1 : state) (es : list event) : Prop :=
    exists T x Rm Ad e1 e2 m e3, summary A0 s0 s1 es T x Rm Ad e1 e2 m e3 /\ apart es.

  Lemma accounted_neutral s0 s1 : (forall x, container s1 x = container s0 x) ->
    (forall x, internalResource s1 x = internalResource s0 x) -> accounted s0 s1 [].
  Proof.
    intros Hc Hr. exists (NRes 0), 0%nat, [], [], [], [], [], []. split; [|constructor]. constructor.
    - reflexivity.
    - now left.
    - congruence.
    - now left.
    - now left.
    - split; [now left|congruence].
    - auto.
    - intros y [].
    - intros y [].
    - intros c z H1 H2. rewrite Hc in H2. contradiction.
    - intros c z H1 H2. rewrite Hr in H2. contradiction.
    - intros [c|r] z; cbn; rewrite ?Hc, ?Hr; auto.
    - tauto.
  Qed.

  Lemma leftC_leave1 s x e : leftC s x e -> leave1 s x e.
  Proof. intros [[-> _]|(c & f & nt & Hc & _ & _ & -> & Hr & Ha)]; [now left|right]. exists c, f, nt. auto. Qed.
  Lemma leftR_leave2 s s1 x e : leftR s x e -> (forall r, internalResource s x = Some r -> internalResource s1 x <> Some r) -> leave2 s s1 x e.
  Proof. intros [[-> _]|(r & nt & Hc & -> & Hr & Ha)] H; [now left|right]. exists r, 0%nat, nt. repeat split; auto. Qed.

  (** the notification of the call itself *)
  Definition own (T : notifier) (f : feature) (Rm Ad : list obj) (m : list event) : Prop :=
    (m = [] /\ (req T = false \/ (Rm = [] /\ Ad = []))) \/ exists nt, m = [(T, f, nt)] /\ rems nt = Rm /\ adds nt = Ad.

  Lemma cont_summary s0 s1 o f x Rm Ad e1 er m (b : bool) :
    (forall y, In y Ad -> container s1 y = Some o) -> (forall y, In y Rm -> container s0 y = Some o /\ container s1 y = None) ->
    (forall y, ~ In y Ad -> ~ In y Rm -> container s1 y = container s0 y) ->
    (forall y, In y Ad -> y <> x -> container s0 y = None) ->
    (forall y, y <> x -> internalResource s1 y = internalResource s0 y) ->
    ((er = [] /\ internalResource s1 x = internalResource s0 x) \/ (leftR s0 x er /\ internalResource s1 x = None)) ->
    (forall c f0 nt, e1 = [(NObj c, f0, nt)] -> c <> o \/ f0 <> f) ->
    (In x Ad /\ leftC s0 x e1) \/ (e1 = [] /\ er = [] /\ forall y, In y Ad -> container s0 y = None) ->
    own (NObj o) f Rm Ad m ->
    accounted s0 s1 (e1 ++ (if b then er else []) ++ m ++ (if b then [] else er)).
  Proof.
    intros HAd HRm Hc Hfree Hres Her Hpl HxL Hm.
    assert (Hx : In x Ad \/ (e1 = [] /\ er = [])) by tauto.
    assert (L1 : leave1 s0 x e1) by (destruct HxL as [[_ L]|[-> _]]; [now apply leftC_leave1|now left]).
    exists (NObj o), x, Rm, Ad, e1, (if b then er else []), m, (if b then [] else er).
    assert (Ler : leave2 s0 s1 x er).
    { destruct Her as [[-> _]|[L E]]; [now left|]. apply leftR_leave2; [assumption|]. rewrite E. discriminate. }
    split.
    - constructor.
      + reflexivity.
      + assumption.
      + intros Ne q Hq. destruct Hx as [Hx|[Hx _]]; [|contradiction]. rewrite (HAd x Hx) in Hq. split; [congruence|assumption].
      + destruct b; [assumption|now left].
      + destruct Hm as [[-> _]|(nt & -> & Er & Ea)]; [now left|right]. exists f, nt. rewrite Er, Ea.
        split; [reflexivity|]. split; [tauto|]. split; [tauto|]. right. left. eauto.
      + split; [destruct b; [now left|assumption]|]. intro Ne. destruct b; [congruence|].
        destruct Her as [[E _]|[L E]]; [contradiction|assumption].
      + intros Ha. destruct Hm as [[-> [Hq|Hq]]|(nt & -> & _)]; [rewrite (Hreq _ Ha) in Hq; discriminate|now left|right; discriminate].
      + intros y Hy. destruct (HRm y Hy) as [H1 H2]. cbn. split; congruence.
      + intros y Hy. cbn. auto.
      + intros c z H1 H2 Ha. destruct (in_dec Nat.eq_dec z Rm) as [Hz|Hz].
        { left. destruct (HRm z Hz) as [H3 _]. split; [congruence|assumption]. }
        destruct (in_dec Nat.eq_dec z Ad) as [Hz'|Hz']; [|rewrite Hc in H2 by assumption; contradiction].
        right. destruct (Nat.eq_dec z x) as [->|N]; [|rewrite (Hfree z Hz' N) in H1; discriminate]. split; [reflexivity|].
        destruct HxL as [[_ [[-> L]|(c' & f' & nt & _ & _ & _ & -> & _)]]|[_ [_ N]]]; [|discriminate|rewrite (N x Hz') in H1; discriminate].
        specialize (L c H1). rewrite (Hreq _ Ha) in L. discriminate.
      + intros r z H1 H2 Ha. right. destruct (Nat.eq_dec z x) as [->|N]; [|rewrite Hres in H2 by assumption; contradiction]. split; [reflexivity|].
        destruct Her as [[_ E]|[[[-> L]|(r' & nt & _ & -> & _)] E]]; [congruence| |].
        * specialize (L r H1). rewrite (Hreq _ Ha) in L. discriminate.
        * destruct b; [left|right]; discriminate.
      + intros [c|r] z; cbn; intro H.
        * destruct (in_dec Nat.eq_dec z Ad) as [Hz'|Hz']; [right; rewrite (HAd z Hz') in H; split; [congruence|assumption]|].
          left. destruct (in_dec Nat.eq_dec z Rm) as [Hz|Hz]; [destruct (HRm z Hz) as [_ H3]; congruence|]. now rewrite <- Hc.
        * left. destruct (Nat.eq_dec z x) as [->|N]; [|now rewrite <- Hres]. destruct Her as [[_ E]|[_ E]]; congruence.
      + intros Ne. left. destruct Hx as [Hx|[-> ->]]; [assumption|]. destruct b; tauto.
    - assert (P1 : forall e, In e e1 -> exists c f0, fst e = (NObj c, f0) /\ (c <> o \/ f0 <> f)).
      { destruct L1 as [->|(c & f0 & nt & E & _)]; [intros e []|]. rewrite E. intros e [<-|[]]. exists c, f0. split; [reflexivity|eauto]. }
      assert (P2 : forall e, In e er -> exists r, fst (fst e) = NRes r).
      { destruct Her as [[-> _]|[[[-> _]|(r & nt & _ & -> & _)] _]]; [intros e []|intros e []|]. intros e [<-|[]]. cbn. eauto. }
      assert (P3 : forall e, In e m -> fst e = (NObj o, f)).
      { destruct Hm as [[-> _]|(nt & -> & _)]; [intros e []|]. intros e [<-|[]]. reflexivity. }
      assert (S1 : e1 = [] \/ exists e, e1 = [e]). { destruct L1 as [->|(c & f0 & nt & -> & _)]; eauto. }
      assert (S2 : er = [] \/ exists e, er = [e]). { destruct Her as [[-> _]|[[[-> _]|(r & nt & _ & -> & _)] _]]; eauto. }
      assert (S3 : m = [] \/ exists e, m = [e]). { destruct Hm as [[-> _]|(nt & -> & _)]; eauto. }
      assert (D13 : forall a c, In a e1 -> In c m -> same_place a c = false).
      { intros a c Ha Hc'. destruct (P1 a Ha) as (c' & f0 & E & D). unfold same_place. rewrite E, (P3 c Hc'). cbn.
        destruct (Nat.eqb_spec c' o), (Nat.eqb_spec f0 f); cbn; try reflexivity. lia. }
      assert (D12 : forall a c, In a e1 -> In c er -> same_place a c = false).
      { intros a c Ha Hc'. destruct (P1 a Ha) as (c' & f0 & E & D). destruct (P2 c Hc') as [r E']. unfold same_place. rewrite E, E'. reflexivity. }
      assert (D23 : forall a c, In a er -> In c m -> same_place a c = false /\ same_place c a = false).
      { intros a c Ha Hc'. destruct (P2 a Ha) as (r & E). unfold same_place. rewrite E, (P3 c Hc'). split; reflexivity. }
      unfold apart. destruct S1 as [->|[a ->]], S2 as [->|[c ->]], S3 as [->|[d ->]], b; cbn [app];
        repeat match goal with
        | |- ForallOrdPairs _ _ => constructor
        | |- Forall _ _ => constructor
        | |- same_place _ _ = false => first [apply D13; now left|apply D12; now left|refine (proj1 (D23 _ _ _ _)); now left|refine (proj2 (D23 _ _ _ _)); now left]
        end.
  Qed.

  Lemma res_summary s0 s1 r x Rm Ad e1 e2 m :
    (forall y, In y Ad -> internalResource s1 y = Some r /\ internalResource s0 y <> Some r) ->
    (forall y, In y Rm -> internalResource s0 y = Some r /\ internalResource s1 y = None) ->
    (forall y, ~ In y Ad -> ~ In y Rm -> internalResource s1 y = internalResource s0 y) ->
    (forall y, In y Ad -> y <> x -> internalResource s0 y = None) ->
    (forall y, y <> x -> container s1 y = container s0 y) ->
    ((e1 = [] /\ container s1 x = container s0 x) \/ (leftC s0 x e1 /\ e2 = [] /\ container s1 x = None)) ->
    (In x Ad /\ leftR s0 x e2) \/ (e1 = [] /\ e2 = [] /\ forall y, In y Ad -> internalResource s0 y = None) ->
    own (NRes r) 0%nat Rm Ad m ->
    (forall nt, m = [(NRes r, 0%nat, nt)] -> checkC (NRes r) nt = true \/ forall y, In y Rm -> container s1 y = None) ->
    accounted s0 s1 (e2 ++ e1 ++ m).
  Proof.
    intros HAd HRm Hc Hfree Hcon Hce HxL Hm Hset.
    assert (Hx : In x Ad \/ (e1 = [] /\ e2 = [])) by tauto.
    assert (Eo : e2 ++ e1 ++ m = e1 ++ e2 ++ m ++ []).
    { rewrite app_nil_r. destruct Hce as [[-> _]|[_ [-> _]]]; reflexivity. }
    assert (L1 : leave1 s0 x e1). { destruct Hce as [[-> _]|[L _]]; [now left|now apply leftC_leave1]. }
    assert (Hold : forall q, In x Ad -> internalResource s0 x = Some q -> internalResource s1 x <> Some q).
    { intros q Hxa Hq. destruct (HAd x Hxa) as [H1 H2]. congruence. }
    assert (L2' : leave2 s0 s1 x e2).
    { destruct HxL as [[Hx' L2]|[_ [-> _]]]; [|now left]. apply leftR_leave2; auto. }
    exists (NRes r), x, Rm, Ad, e1, e2, m, []. split.
    - constructor.
      + exact Eo.
      + assumption.
      + intros Ne q Hq. destruct Hce as [[? _]|[_ [_ E]]]; [contradiction|congruence].
      + assumption.
      + destruct Hm as [[-> _]|(nt & -> & Er & Ea)]; [now left|right]. exists 0%nat, nt. rewrite Er, Ea.
        split; [reflexivity|]. split; [tauto|]. split; [tauto|]. destruct (Hset nt eq_refl); auto.
      + split; [now left|congruence].
      + intros Ha. destruct Hm as [[-> [Hq|Hq]]|(nt & -> & _)]; [rewrite (Hreq _ Ha) in Hq; discriminate|now left|right; discriminate].
      + intros y Hy. destruct (HRm y Hy) as [H1 H2]. cbn. split; congruence.
      + intros y Hy. cbn. now apply HAd.
      + intros c z H1 H2 Ha. right. destruct (Nat.eq_dec z x) as [->|N]; [|rewrite Hcon in H2 by assumption; contradiction]. split; [reflexivity|].
        destruct Hce as [[_ E]|[[[-> L]|(r' & f & nt & _ & _ & _ & -> & _)] _]]; [congruence| |discriminate].
        specialize (L c H1). rewrite (Hreq _ Ha) in L. discriminate.
      + intros q z H1 H2 Ha. destruct (in_dec Nat.eq_dec z Rm) as [Hz|Hz].
        { left. destruct (HRm z Hz) as [H3 _]. split; [congruence|assumption]. }
        destruct (in_dec Nat.eq_dec z Ad) as [Hz'|Hz']; [|rewrite Hc in H2 by assumption; contradiction].
        right. destruct (Nat.eq_dec z x) as [->|N]; [|rewrite (Hfree z Hz' N) in H1; discriminate]. split; [reflexivity|]. left.
        destruct HxL as [[_ [[-> L]|(r' & nt & _ & -> & _)]]|[_ [_ N]]]; [|discriminate|rewrite (N x Hz') in H1; discriminate].
        specialize (L q H1). rewrite (Hreq _ Ha) in L. discriminate.
      + intros [c|q] z; cbn; intro H.
        * left. destruct (Nat.eq_dec z x) as [->|N]; [|now rewrite <- Hcon]. destruct Hce as [[_ E]|[_ [_ E]]]; congruence.
        * destruct (in_dec Nat.eq_dec z Ad) as [Hz'|Hz']; [right; destruct (HAd z Hz') as [H3 _]; rewrite H3 in H; split; [congruence|assumption]|].
          left. destruct (in_dec Nat.eq_dec z Rm) as [Hz|Hz]; [destruct (HRm z Hz) as [_ H3]; congruence|]. now rewrite <- Hc.
      + eauto.
    - rewrite Eo, app_nil_r.
      assert (P1 : forall e, In e e1 -> exists c, fst (fst e) = NObj c).
      { destruct L1 as [->|(c & f0 & nt & -> & _)]; [intros e []|]. intros e [<-|[]]. cbn. eauto. }
      assert (P2 : forall e, In e e2 -> exists q, fst (fst e) = NRes q /\ q <> r).
      { destruct HxL as [[Hx' L2]|[_ [-> _]]]; [|intros e []].
        destruct L2 as [[-> _]|(q & nt & Hq & -> & _)]; [intros e []|]. intros e [<-|[]]. exists q. split; [reflexivity|].
        intros ->. destruct (HAd x Hx'). contradiction. }
      assert (P3 : forall e, In e m -> fst e = (NRes r, 0%nat)).
      { destruct Hm as [[-> _]|(nt & -> & _)]; [intros e []|]. intros e [<-|[]]. reflexivity. }
      assert (S1 : e1 = [] \/ exists e, e1 = [e]). { destruct L1 as [->|(c & f0 & nt & -> & _)]; eauto. }
      assert (S2 : e2 = [] \/ exists e, e2 = [e]). { destruct L2' as [->|(q & f & nt & -> & _)]; eauto. }
      assert (S3 : m = [] \/ exists e, m = [e]). { destruct Hm as [[-> _]|(nt & -> & _)]; eauto. }
      assert (D12 : forall a c, In a e1 -> In c e2 -> same_place a c = false).
      { intros a c Ha Hc'. destruct (P1 a Ha) as (c' & E). destruct (P2 c Hc') as (q & E' & _). unfold same_place. rewrite E, E'. reflexivity. }
      assert (D13 : forall a c, In a e1 -> In c m -> same_place a c = false).
      { intros a c Ha Hc'. destruct (P1 a Ha) as (c' & E). unfold same_place. rewrite E, (P3 c Hc'). reflexivity. }
      assert (D23 : forall a c, In a e2 -> In c m -> same_place a c = false).
      { intros a c Ha Hc'. destruct (P2 a Ha) as (q & E & N). unfold same_place. rewrite E, (P3 c Hc'). cbn.
        destruct (Nat.eqb_spec q r); [contradiction|reflexivity]. }
      unfold apart. destruct S1 as [->|[a ->]], S2 as [->|[c ->]], S3 as [->|[d ->]]; cbn [app];
        repeat match goal with
        | |- ForallOrdPairs _ _ => constructor
        | |- Forall _ _ => constructor
        | |- same_place _ _ = false => first [apply D13; now left|apply D12; now left|apply D23; now left]
        end.
  Qed.

  (** an object that leaves its container for nothing *)
  Lemma leave_summary s0 s1 x e1 : leftC s0 x e1 -> container s1 x = None ->
    (forall y, y <> x -> container s1 y = container s0 y) -> (forall y, internalResource s1 y = internalResource s0 y) ->
    accounted s0 s1 e1.
  Proof.
    intros L Hx Hy Hr. rewrite <- (app_nil_r e1). change (e1 ++ []) with ([] ++ e1 ++ []).
    exists (NRes 0), x, [], [], e1, [], [], []. split.
    - constructor.
      + reflexivity.
      + now apply leftC_leave1.
      + congruence.
      + now left.
      + now left.
      + split; [now left|congruence].
      + auto.
      + intros y [].
      + intros y [].
      + intros c z H1 H2 Ha. right. destruct (Nat.eq_dec z x) as [->|N]; [|rewrite Hy in H2 by assumption; contradiction]. split; [reflexivity|].
        destruct L as [[-> L]|(r' & f & nt & _ & _ & _ & -> & _)]; [|discriminate].
        specialize (L c H1). rewrite (Hreq _ Ha) in L. discriminate.
      + intros q z H1 H2. rewrite Hr in H2. contradiction.
      + intros [c|q] z; cbn; [|rewrite Hr; auto]. destruct (Nat.eq_dec z x) as [->|N]; [congruence|]. rewrite Hy by assumption. auto.
      + eauto.
    - cbn. rewrite app_nil_r. destruct L as [[-> L]|(r' & f & nt & _ & _ & _ & -> & _)]; unfold apart; repeat constructor.
  Qed.
End Calls.
