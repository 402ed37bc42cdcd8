From Verif Require Import Base ListModel NotifyModel GraphModel GraphSpec GraphAcyclic AdapterModel AdapterSpec AdapterWalk AdapterDispatch.

(** ** What a call did to containment, and the notifications about it *)
Definition leave1 (s0 : state) (x : obj) (e1 : list event) : Prop :=
  e1 = [] \/ exists c f nt, e1 = [(NObj c, f, nt)] /\ rems nt = [x] /\ adds nt = [] /\ container s0 x = Some c.
Definition leave2 (s0 s1 : state) (x : obj) (e2 : list event) : Prop :=
  e2 = [] \/ exists r f nt, e2 = [(NRes r, f, nt)] /\ evt nt = REMOVE /\ rems nt = [x] /\ internalResource s0 x = Some r /\ internalResource s1 x <> Some r.
Definition main (s1 : state) (T : notifier) (Rm Ad : list obj) (m : list event) : Prop :=
  m = [] \/ exists f nt, m = [(T, f, nt)] /\ (forall z, In z (rems nt) <-> In z Rm) /\ (forall z, In z (adds nt) <-> In z Ad)
    /\ (checkC T nt = true \/ (exists o, T = NObj o) \/ forall y, In y Rm -> container s1 y = None).

Record summary (A0 : flags) (s0 s1 : state) (es : list event) (T : notifier) (x : obj) (Rm Ad : list obj)
               (e1 e2 m e3 : list event) : Prop := {
  sm_es : es = e1 ++ e2 ++ m ++ e3;
  sm_e1 : leave1 s0 x e1;
  sm_left : e1 <> [] -> forall q, container s1 x = Some q -> T = NObj q /\ In x Ad;
  sm_e2 : leave2 s0 s1 x e2;
  sm_m : main s1 T Rm Ad m;
  sm_e3 : leave2 s0 s1 x e3 /\ (e3 <> [] -> internalResource s1 x = None);
  sm_req : A0 T = true -> (Rm = [] /\ Ad = []) \/ m <> [];
  sm_rm : forall y, In y Rm -> edge s0 T y /\ ~ edge s1 T y;
  sm_ad : forall y, In y Ad -> edge s1 T y;
  sm_lostC : forall c z, container s0 z = Some c -> container s1 z <> Some c -> A0 (NObj c) = true ->
               (T = NObj c /\ In z Rm) \/ (z = x /\ e1 <> []);
  sm_lostR : forall r z, internalResource s0 z = Some r -> internalResource s1 z <> Some r -> A0 (NRes r) = true ->
               (T = NRes r /\ In z Rm) \/ (z = x /\ (e2 <> [] \/ e3 <> []));
  sm_gain : forall p z, edge s1 p z -> edge s0 p z \/ (p = T /\ In z Ad);
  sm_x : e1 <> [] \/ e2 <> [] \/ e3 <> [] -> In x Ad \/ exists r, T = NRes r }.

Lemma edge_dec s p x : edge s p x \/ ~ edge s p x.
Proof.
  destruct p as [c|r]; cbn.
  - destruct (container s x) as [d|]; [destruct (Nat.eq_dec d c)|]; [left|right|right]; congruence.
  - destruct (internalResource s x) as [d|]; [destruct (Nat.eq_dec d r)|]; [left|right|right]; congruence.
Qed.
Lemma pairsR_app a b : pairsR (a ++ b) = pairsR a ++ pairsR b.
Proof. induction a as [|[[n f] nt] a IH]; cbn; [reflexivity|]. now rewrite IH, app_assoc. Qed.
Lemma pairsA_app a b : pairsA (a ++ b) = pairsA a ++ pairsA b.
Proof. induction a as [|[[n f] nt] a IH]; cbn; [reflexivity|]. now rewrite IH, app_assoc. Qed.

Section Summary.
  Context (M : metamodel) (s0 s1 : state) (A0 : flags) (roots : notifier -> Prop).
  Context (Hex : exact s0 roots A0) (Hout : outermost s0 roots A0) (Ac0 : acyclic s0) (Ac1 : acyclic s1).
  Context (es : list event) (T : notifier) (x : obj) (Rm Ad : list obj) (e1 e2 m e3 : list event).
  Context (Sm : summary A0 s0 s1 es T x Rm Ad e1 e2 m e3).

  Lemma above_gain o : T = NObj o -> forall d z, above s1 d z -> above s0 d z \/ above s1 o z.
  Proof.
    intros ET d z H. induction H as [c z Hc|c d z Hc H IH].
    - destruct (sm_gain _ _ _ _ _ _ _ _ _ _ _ _ Sm (NObj c) z Hc) as [E|[E _]]; [left; now constructor|].
      rewrite ET in E. injection E as ->. right. now constructor.
    - destruct (sm_gain _ _ _ _ _ _ _ _ _ _ _ _ Sm (NObj c) z Hc) as [E|[E _]].
      + destruct IH as [IH|IH]; [left; now apply (above_step _ c)|right; now apply (above_step _ c)].
      + rewrite ET in E. injection E as ->. right. now constructor.
  Qed.
  Definition clear_of (z : obj) : Prop := forall o, T = NObj o -> o <> z /\ ~ above s1 z o.
  Lemma clear_rm y : In y Rm -> clear_of y.
  Proof.
    intros Hy o ET. destruct (sm_rm _ _ _ _ _ _ _ _ _ _ _ _ Sm y Hy) as [H _]. rewrite ET in H. cbn in H. split.
    - intros ->. apply (Ac0 y). now constructor.
    - intro Ha. destruct (above_gain o ET y o Ha) as [Hb|Hb]; [|exact (Ac1 o Hb)].
      apply (Ac0 y). now apply (above_step _ o).
  Qed.
  Lemma clear_ad y : In y Ad \/ (exists r, T = NRes r) -> clear_of y.
  Proof.
    intros [Hy|[r Er]] o ET; [|congruence]. pose proof (sm_ad _ _ _ _ _ _ _ _ _ _ _ _ Sm y Hy) as H. rewrite ET in H. cbn in H. split.
    - intros ->. apply (Ac1 y). now constructor.
    - intro Ha. apply (Ac1 y). now apply (above_step _ o).
  Qed.
  Lemma clear_above z y : clear_of z -> above s1 z y -> above s0 z y.
  Proof.
    intros Hz H. induction H as [c y Hc|c d y Hc H IH].
    - destruct (sm_gain _ _ _ _ _ _ _ _ _ _ _ _ Sm (NObj c) y Hc) as [E|[E _]]; [now constructor|].
      destruct (Hz c (eq_sym E)) as [N _]. contradiction.
    - destruct (sm_gain _ _ _ _ _ _ _ _ _ _ _ _ Sm (NObj c) y Hc) as [E|[E _]]; [apply (above_step _ c); auto|].
      destruct (Hz c (eq_sym E)) as [_ N]. contradiction.
  Qed.
  Lemma down0 p z : edge s0 p z -> A0 p = true -> A0 (NObj z) = true.
  Proof. intros H Hp. apply Hex in Hp. apply Hex. exact (cov_child _ _ _ _ Hp H). Qed.
  Lemma above0_parent z y : above s0 z y -> A0 (NObj z) = true -> exists c, container s0 y = Some c /\ A0 (NObj c) = true.
  Proof.
    intros H Hz. induction H as [c y Hc|c d y Hc H IH]; [eauto|]. exists c. split; [assumption|].
    destruct IH as (b & Hb & Ab); [assumption|]. exact (down0 (NObj b) c Hb Ab).
  Qed.
  Lemma roots_clear p z : edge s0 p z -> clear_of z -> A0 p = true -> forall y, roots (NObj y) -> y <> z /\ ~ above s1 z y.
  Proof.
    intros Hp Hc Ha y Hy. split.
    - intros ->. rewrite (Hout z p Hy Hp) in Ha. discriminate.
    - intro Hab. apply (clear_above z y Hc) in Hab. destruct (above0_parent z y Hab) as (c & Hcy & Ac); [exact (down0 p z Hp Ha)|].
      rewrite (Hout y (NObj c) Hy Hcy) in Ac. discriminate.
  Qed.

  Lemma leave1_pairs : leave1 s0 x e1 -> pairsA e1 = [] /\ (forall p z, In (p, z) (pairsR e1) -> z = x).
  Proof.
    intros [->|(c & f & nt & -> & Er & Ea & _)]; [split; [reflexivity|intros p z []]|].
    cbn. rewrite Er, Ea. split; [reflexivity|]. intros p z [[= <- <-]|[]]. reflexivity.
  Qed.
  Lemma leave2_pairs e : leave2 s0 s1 x e -> pairsA e = [] /\ forall p z, In (p, z) (pairsR e) -> exists r, p = NRes r.
  Proof.
    intros [->|(r & f & nt & -> & Ee & Er & _)]; [split; [reflexivity|intros p z []]|].
    cbn. rewrite Er. unfold adds. rewrite Ee. split; [reflexivity|]. intros p z [[= <- <-]|[]]. eauto.
  Qed.
  Lemma main_R p z : In (p, z) (pairsR m) -> p = T /\ In z Rm.
  Proof.
    destruct (sm_m _ _ _ _ _ _ _ _ _ _ _ _ Sm) as [->|(f & nt & -> & Er & Ea & _)]; [intros []|]. cbn. rewrite app_nil_r.
    intro H. apply in_map_iff in H as (y & [= <- <-] & Hy). split; [reflexivity|now apply Er].
  Qed.
  Lemma main_R_in z : m <> [] -> In z Rm -> In (T, z) (pairsR m).
  Proof.
    intros N H. destruct (sm_m _ _ _ _ _ _ _ _ _ _ _ _ Sm) as [->|(f & nt & -> & Er & Ea & _)]; [congruence|]. cbn. rewrite app_nil_r.
    apply in_map. now apply Er.
  Qed.
  Lemma main_A_in z : A0 T = true -> In z Ad -> In (T, z) (pairsA m).
  Proof.
    intros Ha H. destruct (sm_req _ _ _ _ _ _ _ _ _ _ _ _ Sm Ha) as [[_ E]|N]; [rewrite E in H; destruct H|].
    destruct (sm_m _ _ _ _ _ _ _ _ _ _ _ _ Sm) as [->|(f & nt & -> & Er & Ea & _)]; [congruence|]. cbn. rewrite app_nil_r.
    apply in_map. now apply Ea.
  Qed.

  Lemma start_inv : Inv s1 A0 roots T false A0 (pairsR es) (pairsA es).
  Proof.
    assert (EsR : pairsR es = pairsR e1 ++ pairsR e2 ++ pairsR m ++ pairsR e3) by (rewrite (sm_es _ _ _ _ _ _ _ _ _ _ _ _ Sm), !pairsR_app; reflexivity).
    assert (EsA : pairsA es = pairsA e1 ++ pairsA e2 ++ pairsA m ++ pairsA e3) by (rewrite (sm_es _ _ _ _ _ _ _ _ _ _ _ _ Sm), !pairsA_app; reflexivity).
    constructor.
    - intros z Hz. apply Hex in Hz. inversion Hz as [n Hn En|p y Hp Hy Ey]; [now left|]. clear y Ey Hz. rename Hy into Hy'. pose proof Hy' as Hy. right. apply Hex in Hp.
      destruct (edge_dec s1 p z) as [He|He]; [left; eauto|]. right. exists p. split; [|assumption].
      rewrite EsR, !in_app_iff. destruct p as [c|r]; cbn in Hy, He.
      + destruct (sm_lostC _ _ _ _ _ _ _ _ _ _ _ _ Sm c z Hy He Hp) as [[ET Hr]|[-> He1]].
        * right. right. left. rewrite <- ET in *. destruct (sm_req _ _ _ _ _ _ _ _ _ _ _ _ Sm Hp) as [[E _]|N]; [rewrite E in Hr; destruct Hr|].
          now apply main_R_in.
        * left. destruct (sm_e1 _ _ _ _ _ _ _ _ _ _ _ _ Sm) as [->|(c' & f & nt & -> & Er & _ & Hc)]; [congruence|].
          cbn. rewrite Er. left. congruence.
      + destruct (sm_lostR _ _ _ _ _ _ _ _ _ _ _ _ Sm r z Hy He Hp) as [[ET Hr]|[-> [He2|He3]]].
        * right. right. left. rewrite <- ET in *. destruct (sm_req _ _ _ _ _ _ _ _ _ _ _ _ Sm Hp) as [[E _]|N]; [rewrite E in Hr; destruct Hr|].
          now apply main_R_in.
        * right. left. destruct (sm_e2 _ _ _ _ _ _ _ _ _ _ _ _ Sm) as [->|(r' & f & nt & -> & _ & Er & Hr & _)]; [congruence|].
          cbn. rewrite Er. left. congruence.
        * right. right. right. destruct (sm_e3 _ _ _ _ _ _ _ _ _ _ _ _ Sm) as [[->|(r' & f & nt & -> & _ & Er & Hr & _)] _]; [congruence|].
          cbn. rewrite Er. left. congruence.
    - intros r H. apply Hex in H. inversion H. assumption.
    - intros p z Hz Hp. destruct (sm_gain _ _ _ _ _ _ _ _ _ _ _ _ Sm p z Hz) as [E|[-> Ha]]; [left; exact (down0 p z E Hp)|].
      right. rewrite EsA, !in_app_iff. right. right. left. now apply main_A_in.
    - intros n Hn. apply Hex. now constructor.
    - auto.
    - auto.
  Qed.

  Lemma later_clear z (P : list (notifier * obj)) : clear_of z -> (forall c y, In (NObj c, y) P -> NObj c = T) ->
    forall c y, In (NObj c, y) P -> c <> z /\ ~ above s1 z c.
  Proof. intros H HP c y Hc. apply H. symmetry. exact (HP c y Hc). Qed.

  Lemma all_fine : fine s1 A0 roots T false es.
  Proof.
    rewrite (sm_es _ _ _ _ _ _ _ _ _ _ _ _ Sm).
    pose proof (sm_e3 _ _ _ _ _ _ _ _ _ _ _ _ Sm) as [E3 N3].
    pose proof (sm_e2 _ _ _ _ _ _ _ _ _ _ _ _ Sm) as E2. pose proof (sm_e1 _ _ _ _ _ _ _ _ _ _ _ _ Sm) as E1.
    pose proof (leave2_pairs e3 E3) as [A3 R3]. pose proof (leave2_pairs e2 E2) as [A2 R2].
    assert (F3 : forall d, fine s1 A0 roots T d e3).
    { intro d. destruct E3 as [E|(r & f & nt & E & Ee & Er & Hr & Hr1)]; rewrite E; [exact Logic.I|].
      assert (Ne : e3 <> []) by (rewrite E; discriminate).
      assert (Hc : clear_of x).
      { apply clear_ad, (sm_x _ _ _ _ _ _ _ _ _ _ _ _ Sm). right. right. exact Ne. }
      cbn [fine]. rewrite Er. assert (Ead : adds nt = []) by (unfold adds; now rewrite Ee). rewrite Ead.
      split; [|split; [eauto|split; [contradiction|split; [intros y []|exact Logic.I]]]].
      intros l1 y l2 El. destruct l1 as [|? [|? ?]]; try discriminate El. injection El as <- <-. cbn.
      constructor.
      - unfold checkC. rewrite Ee. discriminate.
      - intros _ r' Hr'. rewrite N3 in Hr' by exact Ne. discriminate.
      - intros c z [].
      - exact (roots_clear (NRes r) x Hr Hc). }
    assert (Fm : fine s1 A0 roots T false (m ++ e3)).
    { destruct (sm_m _ _ _ _ _ _ _ _ _ _ _ _ Sm) as [Em|(f & nt & Em & Er & Ea & Hset)]; rewrite Em; [apply F3|].
      cbn [app fine]. split; [|split; [discriminate|split; [|split; [|apply F3]]]].
      - intros l1 y l2 El. assert (Hy : In y Rm) by (apply Er; rewrite El; apply in_app_iff; right; now left).
        destruct (sm_rm _ _ _ _ _ _ _ _ _ _ _ _ Sm y Hy) as [Hy0 Hy1]. constructor.
        + intros Hcc q Hq. destruct Hset as [Hset|[[o ET]|Hset]]; [congruence| |rewrite (Hset y Hy) in Hq; discriminate].
          exfalso. destruct (sm_gain _ _ _ _ _ _ _ _ _ _ _ _ Sm (NObj q) y Hq) as [Hq0|[Hq0 _]].
          * rewrite ET in Hy0, Hy1. cbn in *. congruence.
          * rewrite <- Hq0 in Hy1. contradiction.
        + intros Hcr r Hr. exfalso.
          assert (HT : exists r', T = NRes r').
          { unfold checkR in Hcr. destruct T as [o|r']; [|eauto]. cbn in Hcr. destruct (evt nt); discriminate. }
          destruct HT as [r' ET]. destruct (sm_gain _ _ _ _ _ _ _ _ _ _ _ _ Sm (NRes r) y Hr) as [Hr0|[Hr0 _]].
          * rewrite ET in Hy0, Hy1. cbn in *. congruence.
          * rewrite <- Hr0 in Hy1. contradiction.
        + apply later_clear; [now apply clear_rm|]. intros c z Hz. apply in_app_or in Hz as [Hz|Hz].
          * apply in_map_iff in Hz as (w & [= <- _] & _). reflexivity.
          * destruct (R3 _ _ Hz) as [r Hr]. discriminate Hr.
        + exact (roots_clear T y Hy0 (clear_rm y Hy)).
      - intros _ y c Hy ET. apply Er in Hy. now apply (clear_rm y Hy).
      - intros y Hy. apply Ea in Hy. split; [reflexivity|]. exact (sm_ad _ _ _ _ _ _ _ _ _ _ _ _ Sm y Hy). }
    assert (Later : forall c y, In (NObj c, y) (pairsR (m ++ e3)) -> NObj c = T).
    { intros c y H. rewrite pairsR_app, in_app_iff in H. destruct H as [H|H]; [now apply main_R in H as [? _]|].
      destruct (R3 _ _ H) as [r Hr]. discriminate Hr. }
    assert (F2 : fine s1 A0 roots T false (e2 ++ m ++ e3)).
    { destruct E2 as [E|(r & f & nt & E & Ee & Er & Hr & Hr1)]; rewrite E; [exact Fm|].
      assert (Ne : e2 <> []) by (rewrite E; discriminate).
      assert (Hc : clear_of x).
      { apply clear_ad, (sm_x _ _ _ _ _ _ _ _ _ _ _ _ Sm). right. left. exact Ne. }
      cbn [fine app]. rewrite Er. assert (Ead : adds nt = []) by (unfold adds; now rewrite Ee).
      unfold some_adds. rewrite Ead.
      split; [|split; [discriminate|split; [contradiction|split; [intros y []|exact Fm]]]].
      intros l1 y l2 El. destruct l1 as [|? [|? ?]]; try discriminate El. injection El as <- <-. cbn [map app].
      constructor.
      - unfold checkC. rewrite Ee. discriminate.
      - intros _ r' Hr'. destruct (sm_gain _ _ _ _ _ _ _ _ _ _ _ _ Sm (NRes r') x Hr') as [Hq|[Hq Ha]]; [cbn in Hq; congruence|].
        split; [assumption|]. intro Ht. rewrite pairsA_app, in_app_iff. left. now apply main_A_in.
      - now apply later_clear.
      - exact (roots_clear (NRes r) x Hr Hc). }
    destruct E1 as [E|(c & f & nt & E & Er & Ead & Hr)]; rewrite E; [exact F2|].
    assert (Ne : e1 <> []) by (rewrite E; discriminate).
    assert (Hc : clear_of x).
    { apply clear_ad, (sm_x _ _ _ _ _ _ _ _ _ _ _ _ Sm). left. exact Ne. }
    cbn [fine app]. rewrite Er. unfold some_adds. rewrite Ead.
    split; [|split; [discriminate|split; [contradiction|split; [intros y []|exact F2]]]].
    intros l1 y l2 El. destruct l1 as [|? [|? ?]]; try discriminate El. injection El as <- <-. cbn [map app].
    constructor.
    - intros _ q Hq. destruct (sm_left _ _ _ _ _ _ _ _ _ _ _ _ Sm Ne q Hq) as [Hq0 Ha]. symmetry in Hq0.
      split; [assumption|]. intro Ht. rewrite !pairsA_app, !in_app_iff. right. left. now apply main_A_in.
    - unfold checkR. destruct (evt nt); discriminate.
    - apply later_clear; [assumption|]. intros c' y Hy. rewrite pairsR_app, in_app_iff in Hy. destruct Hy as [Hy|Hy]; [|now apply Later in Hy].
      destruct (R2 _ _ Hy) as [r' Hr']. discriminate Hr'.
    - exact (roots_clear (NObj c) x Hr Hc).
  Qed.
End Summary.
