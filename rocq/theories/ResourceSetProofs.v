From Verif Require Import Base ListModel ListSpec ListProofs NotifyModel GraphModel GraphSpec GraphProofs GraphInv GraphSteps
  ResourceSetModel ResourceSetSpec.

Definition rsview (s : rsState) (q : rset) (K : list nat) : rsState := RS (resourceSetOf s) (upd (resources s) q K).

Lemma rm_absent x l : ~ In x l -> rm x l = l.
Proof.
  induction l as [|y l IH]; cbn; intro H; [reflexivity|].
  destruct (Nat.eqb_spec y x); cbn; [tauto|]. f_equal. apply IH. tauto.
Qed.

Lemma rs_set s q K d x v : sets_agree (rsview s q K) -> resources s q = d -> NoDup d ->
  (v = None /\ In x K /\ ~ In x d \/ v = Some q /\ ~ In x K) ->
  exists s', basicSetResourceSet s x v = Some s' /\ resources s' q = d
    /\ sets_agree (rsview s' q (match v with None => rm x K | Some _ => K ++ [x] end)).
Proof.
  intros [A1 A2] Ed Hd Hv. unfold basicSetResourceSet.
  pose proof (A2 q) as HK. cbn in HK. rewrite upd_eq in HK.
  assert (Hown : forall p, resourceSetOf s x = Some p -> p <> q -> In x (resources s p) /\ NoDup (resources s p)).
  { intros p Hp Hne. specialize (A1 x p). specialize (A2 p). cbn in A1, A2. rewrite upd_ne in A1, A2 by assumption. tauto. }
  assert (HxK : In x K <-> resourceSetOf s x = Some q).
  { specialize (A1 x q). cbn in A1. now rewrite upd_eq in A1. }
  (* the lists after the removal: that of q is untouched *)
  assert (Hl : exists l, match resourceSetOf s x with
             | Some p => let? (e, _) := removeWithNotification (resources s p) x in Some (upd (resources s) p e)
             | None => Some (resources s) end = Some l
           /\ l q = d /\ forall p, p <> q -> NoDup (l p) /\ forall y, In y (l p) <-> In y (resources s p) /\ y <> x).
  { destruct (resourceSetOf s x) as [p|] eqn:Ep.
    - destruct (Nat.eq_dec p q) as [->|Hne].
      + assert (HxK' : In x K) by now apply HxK. destruct Hv as [(-> & _ & Hnd)|(_ & Hn)]; [|contradiction].
        destruct (removeWithNotification_ok (resources s q) x) as (cb & -> & _); [now rewrite Ed|]. cbn [obind].
        eexists. split; [reflexivity|]. split; [rewrite upd_eq, Ed; now apply rm_absent|].
        intros p Hp. rewrite upd_ne by assumption. specialize (A2 p). cbn in A2. rewrite upd_ne in A2 by assumption.
        split; [assumption|]. intro y. split; [|tauto]. intro Hy. split; [assumption|]. intros ->.
        specialize (A1 x p). cbn in A1. rewrite upd_ne in A1 by assumption. apply A1 in Hy. congruence.
      + destruct (Hown p eq_refl Hne) as [Hin Hnd].
        destruct (removeWithNotification_ok (resources s p) x Hnd) as (cb & -> & _). cbn [obind].
        eexists. split; [reflexivity|]. split; [rewrite upd_ne; congruence|].
        intros p' Hp'. destruct (Nat.eq_dec p' p) as [->|Hpp].
        * rewrite upd_eq. split; [now apply rm_NoDup|]. intro. apply rm_in.
        * rewrite upd_ne by assumption. specialize (A2 p'). cbn in A2. rewrite upd_ne in A2 by assumption.
          split; [assumption|]. intro y. split; [|tauto]. intro Hy. split; [assumption|]. intros ->.
          specialize (A1 x p'). cbn in A1. rewrite upd_ne in A1 by assumption. apply A1 in Hy. congruence.
    - eexists. split; [reflexivity|]. split; [assumption|].
      intros p Hp. specialize (A2 p). cbn in A2. rewrite upd_ne in A2 by assumption.
      split; [assumption|]. intro y. split; [|tauto]. intro Hy. split; [assumption|]. intros ->.
      specialize (A1 x p). cbn in A1. rewrite upd_ne in A1 by assumption. apply A1 in Hy. congruence. }
  destruct Hl as (l & -> & Hlq & Hlp). cbn [obind]. eexists. split; [reflexivity|]. cbn [resources]. split; [assumption|].
  split; cbn.
  - intros y p. specialize (A1 y p). cbn in A1. unfold upd in *.
    destruct (Nat.eqb_spec p q) as [Ep|Hp]; [rewrite Ep in *|].
    + destruct Hv as [(-> & Hv & _)|(-> & Hv)].
      * rewrite rm_in, A1. destruct (Nat.eqb_spec y x); intuition congruence.
      * rewrite in_app_iff, A1. cbn. destruct (Nat.eqb_spec y x) as [->|]; intuition congruence.
    + destruct (Hlp p Hp) as [_ ->]. rewrite A1.
      destruct (Nat.eqb_spec y x) as [->|]; [|intuition congruence].
      destruct Hv as [(-> & _)|(-> & _)]; intuition congruence.
  - intro p. unfold upd. destruct (Nat.eqb_spec p q) as [Ep|Hp]; [|now apply Hlp].
    destruct Hv as [(-> & Hv & _)|(-> & Hv)]; [now apply rm_NoDup|].
    apply NoDup_app_iff. split; [assumption|]. split; [repeat constructor; tauto|].
    intros z Hz [<-|[]]. contradiction.
Qed.

Lemma rs_fold_none q d R : NoDup d -> forall s K, sets_agree (rsview s q K) -> resources s q = d -> NoDup R -> incl R K ->
  (forall x, In x R -> ~ In x d) ->
  exists s' K', rsFold None R s = Some s' /\ resources s' q = d /\ sets_agree (rsview s' q K')
    /\ forall y, In y K' <-> In y K /\ ~ In y R.
Proof.
  intro Hd. induction R as [|x R IH]; intros s K A Ed Hnd Hi Hx; cbn [rsFold].
  - exists s, K. split; [reflexivity|]. split; [assumption|]. split; [assumption|]. cbn. tauto.
  - destruct (rs_set s q K d x None A Ed Hd) as (s1 & -> & E1 & A1).
    { left. split; [reflexivity|]. split; [apply Hi; now left|apply Hx; now left]. }
    cbn [obind]. inversion_clear Hnd as [|? ? Hn Hnd'].
    destruct (IH s1 (rm x K) A1 E1 Hnd') as (s' & K' & E & Ec & A' & Hl).
    { intros y Hy. apply rm_in. split; [apply Hi; now right|]. intros ->. contradiction. }
    { intros y Hy. apply Hx. now right. }
    exists s', K'. split; [assumption|]. split; [assumption|]. split; [assumption|].
    intro y. rewrite Hl, rm_in. cbn. split.
    + intros [[? ?] ?]. split; [assumption|]. intros [->|]; tauto.
    + intros [? N]. split; [split; [assumption|intros ->; apply N; now left]|intro; apply N; now right].
Qed.
Lemma rs_fold_some q d A : NoDup d -> forall s K, sets_agree (rsview s q K) -> resources s q = d -> NoDup A ->
  (forall x, In x A -> ~ In x K) ->
  exists s' K', rsFold (Some q) A s = Some s' /\ resources s' q = d /\ sets_agree (rsview s' q K')
    /\ forall y, In y K' <-> In y K \/ In y A.
Proof.
  intro Hd. induction A as [|x A IH]; intros s K Ag Ed Hnd Hx; cbn [rsFold].
  - exists s, K. split; [reflexivity|]. split; [assumption|]. split; [assumption|]. cbn. tauto.
  - destruct (rs_set s q K d x (Some q) Ag Ed Hd) as (s1 & -> & E1 & A1).
    { right. split; [reflexivity|apply Hx; now left]. }
    cbn [obind]. inversion_clear Hnd as [|? ? Hn Hnd'].
    destruct (IH s1 (K ++ [x]) A1 E1 Hnd') as (s' & K' & E & Ec & A' & Hl).
    { intros y Hy. rewrite in_app_iff. intros [Hv|[->|[]]]; [|contradiction]. eapply Hx; [right|]; eassumption. }
    exists s', K'. split; [assumption|]. split; [assumption|]. split; [assumption|].
    intro y. rewrite Hl, in_app_iff. cbn. tauto.
Qed.

Lemma resourcesOp_ok s q p : sets_agree s -> op_ok Nat.eqb (resources s q) p ->
  match spec_step Nat.eqb true (resources s q) p with
  | None => resourcesOp s q p = None
  | Some (d, _) => exists s', resourcesOp s q p = Some s' /\ sets_agree s' /\ resources s' q = d
  end.
Proof.
  intros [A1 A2] Hok. pose proof (list_effect_total (resources s q) p Hok) as T. unfold resourcesOp.
  destruct (list_effect (resources s q) p) as [[[st R] A]|] eqn:E; cbn [obind];
    destruct (spec_step Nat.eqb true (resources s q) p) as [[d r]|]; try contradiction; [|reflexivity].
  apply list_effect_good in E as [E _]; [|apply A2|assumption].
  destruct (effect_elements _ _ _ _ _ (A2 q) E) as (N1 & N2 & Hel).
  destruct E as (_ & Hi & HA & Hd & _). rewrite T in *.
  destruct (rs_fold_none q d R N1 (RS (resourceSetOf s) (upd (resources s) q d)) (resources s q)) as (s1 & K1 & -> & E1 & V1 & Hl1).
  { split; cbn.
    - intros x p'. rewrite <- A1. unfold upd. destruct (Nat.eqb_spec p' q) as [Ep|]; [now rewrite Ep|reflexivity].
    - intro p'. unfold upd. destruct (Nat.eqb_spec p' q); apply A2. }
  { cbn. apply upd_eq. }
  { assumption. } { assumption. }
  { intros x Hx Hin. apply Hel in Hin as [[_ Hin]|Hin]; [contradiction|]. exact (Hd x Hin (Hi x Hx)). }
  cbn [obind].
  destruct (rs_fold_some q d A N1 s1 K1 V1 E1 HA) as (s2 & K2 & -> & E2 & V2 & Hl2).
  { intros x Hx Hv. apply Hl1 in Hv as [Hv _]. exact (Hd x Hx Hv). }
  exists s2. split; [reflexivity|]. split; [|assumption]. destruct V2 as [V1' V2']. cbn in V1', V2'.
  split.
  - intros x p'. rewrite <- V1'. unfold upd. destruct (Nat.eqb_spec p' q) as [Ep|]; [rewrite Ep in *|reflexivity].
    rewrite E2, Hel, Hl2, Hl1. reflexivity.
  - intro p'. specialize (V2' p'). unfold upd in V2'. destruct (Nat.eqb_spec p' q) as [Ep|]; [rewrite ?Ep in *; now rewrite E2|assumption].
Qed.

Lemma rs_reachable_ok s : rs_reachable s -> sets_agree s.
Proof.
  induction 1 as [|s q p s' _ IH Hok E].
  - split; cbn; [|constructor]. intuition congruence.
  - pose proof (resourcesOp_ok s q p IH Hok) as H. destruct (spec_step _ _ _ _) as [[d r]|]; [|congruence].
    destruct H as (s'' & E' & A & _). assert (s'' = s') by congruence. now subst.
Qed.
