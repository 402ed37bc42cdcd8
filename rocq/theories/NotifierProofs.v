From Coq Require Import Permutation.
From Verif Require Import Base ListModel ListSpec ListProofs CallbackSpec CallbackProofs NotifierModel NotifierSpec.

Section Notify.
  Context {Adapter S : Type} (changed : Adapter -> S -> list Adapter -> S * list Adapter).

  Lemma notify_loop_quiet : quiet changed -> forall l2 l1 s fuel, (length l2 < fuel)%nat ->
    exists s', notify_loop changed fuel (length l1) s (l1 ++ l2) = Some (l2, s', l1 ++ l2).
  Proof.
    intro Hq. induction l2 as [|a l2 IH]; intros l1 s [|fuel] Hf; cbn in Hf; try lia; cbn [notify_loop].
    - rewrite app_nil_r. rewrite nth_error_ge_none by lia. eauto.
    - rewrite nth_error_app2, Nat.sub_diag by lia. cbn [nth_error].
      specialize (Hq a s (l1 ++ a :: l2)). destruct (changed a s (l1 ++ a :: l2)) as [s' l']. cbn in Hq. subst l'.
      destruct (IH (l1 ++ [a]) s' fuel ltac:(lia)) as (s'' & E).
      rewrite app_length, Nat.add_1_r, <- app_assoc in E. cbn [app] in E. rewrite E. eauto.
  Qed.

  Lemma notify_quiet fuel s l : quiet changed -> (length l < fuel)%nat ->
    exists s', ENotify changed fuel true s l = Some (l, s', l).
  Proof. intros Hq Hf. exact (notify_loop_quiet Hq l [] s fuel Hf). Qed.

  Lemma notify_off fuel s l : ENotify changed fuel false s l = Some ([], s, l).
  Proof. reflexivity. Qed.

  Lemma notify_many_quiet fuel n s l : quiet changed -> (length l < fuel)%nat ->
    notify_many changed fuel n true s l = Some (repeat l n).
  Proof.
    intros Hq Hf. revert s; induction n as [|n IH]; intro s; [reflexivity|]. cbn [notify_many repeat].
    destruct (notify_quiet fuel s l Hq Hf) as (s' & ->). now rewrite IH.
  Qed.

  Lemma notify_loop_appends : only_appends changed -> forall fuel l1 l2 s d s' l',
    notify_loop changed fuel (length l1) s (l1 ++ l2) = Some (d, s', l') ->
    l' = l1 ++ d /\ exists l3, d = l2 ++ l3.
  Proof.
    intro Hq. induction fuel as [|fuel IH]; intros l1 l2 s d s' l' E; cbn [notify_loop] in E; [discriminate|].
    destruct l2 as [|a l2].
    - rewrite app_nil_r in E. rewrite nth_error_ge_none in E by lia. injection E as <- <- <-.
      rewrite app_nil_r. split; [reflexivity|now exists []].
    - rewrite nth_error_app2, Nat.sub_diag in E by lia. cbn [nth_error] in E.
      destruct (Hq a s (l1 ++ a :: l2)) as (l3 & El). destruct (changed a s (l1 ++ a :: l2)) as [s1 l1'].
      cbn in El. subst l1'.
      destruct (notify_loop changed fuel (Datatypes.S (length l1)) s1 ((l1 ++ a :: l2) ++ l3)) as [[[d1 s2] l4]|] eqn:E1;
        [|discriminate]. injection E as <- <- <-.
      replace (Datatypes.S (length l1)) with (length (l1 ++ [a])) in E1 by (rewrite app_length; cbn; lia).
      rewrite <- app_assoc in E1. cbn [app] in E1.
      replace (l1 ++ a :: l2 ++ l3) with ((l1 ++ [a]) ++ (l2 ++ l3)) in E1 by (rewrite <- app_assoc; reflexivity).
      apply IH in E1 as [-> (l5 & ->)]. split; [now rewrite <- app_assoc|].
      exists (l3 ++ l5). cbn. now rewrite <- app_assoc.
  Qed.

  Lemma notify_appends fuel s l d s' l' : only_appends changed ->
    ENotify changed fuel true s l = Some (d, s', l') -> d = l' /\ exists l3, l' = l ++ l3.
  Proof. intros Hq E. apply (notify_loop_appends Hq fuel [] l) in E as [-> H]. split; [reflexivity|exact H]. Qed.
End Notify.

Section Targets.
  Definition adds_only (cbs : list (callback adapter)) : Prop :=
    Forall (fun cb => match cb with DidRemove _ _ | DidSet _ _ _ | DidClear _ => False | _ => True end) cbs.
  Definition removes_only (cbs : list (callback adapter)) : Prop :=
    Forall (fun cb => match cb with DidAdd _ _ | DidSet _ _ _ | DidClear _ => False | _ => True end) cbs.

  Lemma adds_left cbs : adds_only cbs -> left cbs = [].
  Proof. induction 1 as [|cb cbs H _ IH]; [reflexivity|]. destruct cb; cbn; auto; contradiction. Qed.
  Lemma removes_entered cbs : removes_only cbs -> entered cbs = [].
  Proof. induction 1 as [|cb cbs H _ IH]; [reflexivity|]. destruct cb; cbn; auto; contradiction. Qed.

  Lemma adds_target n cbs t a : adds_only cbs ->
    (fold_left (on_callback n) cbs t a = Some n <-> In a (entered cbs) \/ t a = Some n).
  Proof.
    intro H. revert t; induction H as [|cb cbs Hc H IH]; intro t; cbn [fold_left entered]; [cbn; tauto|].
    rewrite IH. destruct cb; cbn [on_callback]; try contradiction; try tauto.
    unfold set_target. cbn [In]. destruct (Nat.eqb_spec a e) as [->|N]; [tauto|].
    split; intros [?|?]; auto. destruct H0; [congruence|auto].
  Qed.
  Lemma removes_target n cbs t a : removes_only cbs ->
    (fold_left (on_callback n) cbs t a = Some n <-> ~ In a (left cbs) /\ t a = Some n).
  Proof.
    intro H. revert t; induction H as [|cb cbs Hc H IH]; intro t; cbn [fold_left left]; [cbn; tauto|].
    rewrite IH. destruct cb; cbn [on_callback]; try contradiction; try tauto.
    unfold unset_target. cbn [In]. destruct (t old) as [m|] eqn:Et.
    - destruct (Nat.eqb_spec n m) as [->|N].
      + unfold set_target. destruct (Nat.eqb_spec a old) as [->|N2]; [split; [intros [_ ?]; discriminate|intros [H1 _]; tauto]|].
        split; intros [H1 H2]; split; auto; intros [?|?]; auto.
      + split; intros [H1 H2]; split; auto. intros [->|?]; auto. congruence.
    - split; intros [H1 H2]; split; auto. intros [->|?]; auto. congruence.
  Qed.

  Lemma adds_didAddAll i (l : list adapter) sep : adds_only sep -> adds_only (didAddAll i l sep).
  Proof.
    intro Hs. revert i; induction l as [|x l IH]; intro i; cbn; [constructor|]. constructor; [exact I|].
    apply Forall_app. split; auto. apply IH.
  Qed.
  Lemma removes_down i (l : list adapter) : removes_only (didRemoveDown l i).
  Proof. revert i; induction l as [|x l IH]; intro i; cbn; constructor; auto. apply IH. Qed.

  Ltac lifted H :=
    match type of H with
    | lift ?e _ = _ => let E := fresh "E" in destruct e as [?p|] eqn:E; [|discriminate H]
    end.

  Lemma removeAll_removes n data c cb m d cb' r : removes_only cb ->
    removeAllLoop Nat.eqb 0%nat n data c cb m = Ret (d, cb') r -> removes_only cb'.
  Proof.
    revert data cb m; induction n as [|n IH]; intros data cb m Hcb; cbn [removeAllLoop].
    - intros [= _ <- _]. assumption.
    - intro H. lifted H. cbn [lift] in H.
      destruct (contains Nat.eqb (elems data c) p).
      + destruct ((Z.of_nat n <? 0) || (Z.of_nat n >=? zlen data)); [discriminate|].
        destruct (doRemove 0%nat data (Z.of_nat n)) as [[[d1 o] cb1]|] eqn:E1; [|discriminate H]. cbn [lift] in H.
        eapply IH in H; [exact H|]. apply Forall_app. split; [assumption|].
        unfold doRemove in E1.
        repeat (match type of E1 with obind ?e _ = _ => destruct e; [cbn [obind] in E1|discriminate E1] end).
        injection E1 as <- <- <-. repeat constructor.
      + eapply IH; eassumption.
  Qed.

  Lemma step_kind data o d cbs r : target_safe data o ->
    step Nat.eqb 0%nat false data o = Ret (d, cbs) r ->
    (adds_only cbs /\ NoDup (entered cbs) /\ (forall a, In a (entered cbs) -> ~ In a data)) \/ removes_only cbs.
  Proof.
    intros Hs H.
    assert (Q : forall cb, entered cb = [] -> NoDup (entered cb) /\ (forall a, In a (entered cb) -> ~ In a data)).
    { intros cb ->. split; [constructor|intros ? []]. }
    destruct o; cbn [step andb target_safe] in *.
    - injection H as <- <- <-. left. split; [repeat constructor|]. cbn. split; [repeat constructor; auto|].
      intros a [<-|[]]; auto.
    - injection H as <- <- <-. left. split.
      + apply Forall_app. split; [apply adds_didAddAll; constructor|repeat constructor].
      + rewrite entered_app, entered_didAddAll by reflexivity. cbn. rewrite app_nil_r.
        destruct c; cbn [elems]; [exact Hs|]. subst data. split; [constructor|intros ? []].
    - match type of H with (if ?b then _ else _) = _ => destruct b eqn:Hg; [discriminate H|] end.
      rewrite doInsert_eq in H by lia. injection H as <- <- <-. left. split; [repeat constructor|].
      cbn. split; [repeat constructor; auto|]. intros a [<-|[]]; auto.
    - match type of H with (if ?b then _ else _) = _ => destruct b eqn:Hg; [discriminate H|] end.
      rewrite doInsertAll_eq in H by lia. injection H as <- <- <-. left. split.
      + apply adds_didAddAll. repeat constructor.
      + rewrite entered_didAddAll by reflexivity.
        destruct c; cbn [elems]; [exact Hs|]. subst data. split; [constructor|intros ? []].
    - destruct (indexOf Nat.eqb data e =? -1); [discriminate|]. right.
      destruct (doMove data (indexOf Nat.eqb data e) i) as [[[d1 o] cb1]|] eqn:E1; [|discriminate H].
      cbn [lift] in H. injection H as <- <- <-. unfold doMove in E1.
      destruct (zget data (indexOf Nat.eqb data e)); [cbn [obind] in E1|discriminate].
      destruct (indexOf Nat.eqb data e =? i); [injection E1 as <- <- <-; constructor|].
      repeat (match type of E1 with obind ?e _ = _ => destruct e; [cbn [obind] in E1|discriminate E1] end).
      injection E1 as <- <- <-. repeat constructor.
    - match type of H with (if ?b then _ else _) = _ => destruct b; [discriminate|] end. right.
      destruct (doMove data i j) as [[[d1 o] cb1]|] eqn:E1; [|discriminate H].
      cbn [lift] in H. injection H as <- <- <-. unfold doMove in E1.
      destruct (zget data i); [cbn [obind] in E1|discriminate].
      destruct (i =? j); [injection E1 as <- <- <-; constructor|].
      repeat (match type of E1 with obind ?e _ = _ => destruct e; [cbn [obind] in E1|discriminate E1] end).
      injection E1 as <- <- <-. repeat constructor.
    - match type of H with (if ?b then _ else _) = _ => destruct b eqn:Hg; [discriminate|] end. right.
      destruct (nth_error_lt_some data (Z.to_nat i)) as [x Hx]; [zl|].
      rewrite (doRemove_eq 0%nat _ _ x) in H by (auto; lia). injection H as <- <- <-. repeat constructor.
    - destruct (indexOf Nat.eqb data e =? -1); [injection H as <- <- <-; right; constructor|]. right.
      destruct (doRemove 0%nat data (indexOf Nat.eqb data e)) as [[[d1 o] cb1]|] eqn:E1; [|discriminate H].
      cbn [lift] in H. injection H as <- <- <-. unfold doRemove in E1.
      repeat (match type of E1 with obind ?e _ = _ => destruct e; [cbn [obind] in E1|discriminate E1] end).
      injection E1 as <- <- <-. repeat constructor.
    - match type of H with (if ?b then _ else _) = _ => destruct b eqn:Hg1; [discriminate|] end.
      match type of H with (if ?b then _ else _) = _ => destruct b eqn:Hg2; [discriminate|] end.
      match type of H with (if ?b then _ else _) = _ => destruct b eqn:Hg3; [discriminate|] end. right.
      rewrite doRemoveRange_eq in H by lia. injection H as <- <- <-. apply Forall_app.
      split; [apply removes_down|repeat constructor].
    - right. eapply removeAll_removes in H; [exact H|constructor].
    - match type of H with (if ?b then _ else _) = _ => destruct b eqn:Hg; [discriminate|] end.
      destruct (doGet data i); [|discriminate]. injection H as <- <- <-. right; constructor.
    - contradiction.
    - contradiction.
    - injection H as <- <- <-. right; constructor.
    - injection H as <- <- <-. right; constructor.
    - injection H as <- <- <-. right; constructor.
    - injection H as <- <- <-. right; constructor.
    - injection H as <- <- <-. right; constructor.
  Qed.

  Lemma nat_eqb_ok : forall x y, reflect (x = y) (Nat.eqb x y).
  Proof. exact Nat.eqb_spec. Qed.

  Lemma step_targets w n o w' r : targets_agree w n -> NoDup (registered w n) ->
    target_safe (registered w n) o -> adapters_step w n o = Some (w', r) ->
    targets_agree w' n /\ NoDup (registered w' n).
  Proof.
    intros Ht Hd Hs H. unfold adapters_step in H.
    destruct (step Nat.eqb 0%nat false (registered w n) o) as [[l cbs] r'|] eqn:E; [|discriminate].
    injection H as <- <-. unfold targets_agree. cbn [registered target]. rewrite Nat.eqb_refl.
    pose proof (proj1 (step_callbacks Nat.eqb 0%nat nat_eqb_ok _ _ _ _ _ _ E)) as P. unfold faithful in P.
    destruct (step_kind _ _ _ _ _ Hs E) as [(K & Hn & Hf)|K].
    - rewrite (adds_left _ K), app_nil_r in P.
      assert (N : NoDup l).
      { eapply Permutation_NoDup; [exact P|]. apply NoDup_app_iff. repeat split; auto.
        intros x H1 H2. exact (Hf x H2 H1). }
      split; [|assumption]. intro a. rewrite adds_target by assumption. rewrite (Ht a).
      split; intro H.
      + eapply Permutation_in; [exact P|]. rewrite in_app_iff. tauto.
      + eapply Permutation_in in H; [|symmetry; exact P]. rewrite in_app_iff in H. tauto.
    - rewrite (removes_entered _ K), app_nil_r in P.
      assert (N : NoDup (l ++ left cbs)) by (eapply Permutation_NoDup; [exact P|assumption]).
      apply NoDup_app_iff in N as (N1 & N2 & N3).
      split; [|assumption]. intro a. rewrite removes_target by assumption. rewrite (Ht a).
      split; [intros [H1 H2]|intro H].
      + eapply Permutation_in in H2; [|exact P]. rewrite in_app_iff in H2. tauto.
      + split; [now apply N3|]. eapply Permutation_in; [symmetry; exact P|]. rewrite in_app_iff. tauto.
  Qed.

  Lemma run_targets n ops : forall w w', targets_agree w n -> NoDup (registered w n) ->
    history_safe w n ops -> adapters_run w (map (fun o => (n, o)) ops) = Some w' ->
    targets_agree w' n /\ NoDup (registered w' n).
  Proof.
    induction ops as [|o ops IH]; intros w w' Ht Hd Hs H; cbn [map adapters_run history_safe] in *.
    - injection H as <-. auto.
    - destruct Hs as [Hs1 Hs2]. destruct (adapters_step w n o) as [[w1 r]|] eqn:E; [|discriminate].
      destruct (step_targets _ _ _ _ _ Ht Hd Hs1 E) as [Ht' Hd']. eapply IH; eassumption.
  Qed.

  Lemma run_targets0 n ops w' : history_safe world0 n ops ->
    adapters_run world0 (map (fun o => (n, o)) ops) = Some w' -> targets_agree w' n.
  Proof.
    intros Hs H. eapply (run_targets n ops) in H; eauto.
    - tauto.
    - intro a. cbn. split; [discriminate|contradiction].
    - constructor.
  Qed.
End Targets.
