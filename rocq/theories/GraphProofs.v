From Coq Require Import Permutation.
From Verif Require Import Base ListModel ListSpec ListProofs NotifyModel NotifyProofs CallbackProofs
  GraphModel GraphSpec.

(** * Effects of list calls *)
Definition rm (x : nat) (l : list nat) : list nat := filter (fun y => negb (Nat.eqb y x)) l.
Definition ne (l : list nat) : bool := match l with [] => false | _ => true end.

Lemma rm_in x l y : In y (rm x l) <-> In y l /\ y <> x.
Proof. unfold rm. rewrite filter_In, negb_true_iff, Nat.eqb_neq. tauto. Qed.
Lemma rm_NoDup x l : NoDup l -> NoDup (rm x l).
Proof. apply NoDup_filter. Qed.
Lemma rm_not_in x l : ~ In x l -> rm x l = l.
Proof.
  induction l as [|y l IH]; intro H; cbn; [reflexivity|].
  destruct (Nat.eqb_spec y x) as [->|]; cbn; [destruct H; now left|].
  f_equal. apply IH. intro; apply H; now right.
Qed.
Lemma rm_mid x l1 l2 : NoDup (l1 ++ x :: l2) -> rm x (l1 ++ x :: l2) = l1 ++ l2.
Proof.
  intro H. apply NoDup_remove in H as [_ H]. unfold rm. rewrite filter_app. cbn.
  rewrite Nat.eqb_refl. cbn. fold (rm x l1). fold (rm x l2).
  rewrite in_app_iff in H. rewrite !rm_not_in by tauto. reflexivity.
Qed.

Lemma nelem_at (data : list nat) i : 0 <= i < zlen data -> exists x, nth_error data (Z.to_nat i) = Some x.
Proof. intro H. apply nth_error_lt_some. zl. Qed.
Lemma neqb_ok : forall x y, reflect (x = y) (Nat.eqb x y).
Proof. exact Nat.eqb_spec. Qed.

Lemma removeWithNotification_ok l x : NoDup l ->
  exists cb, removeWithNotification l x = Some (rm x l, cb)
    /\ (In x l -> exists i, cb = [DidRemove i x; DidChange]) /\ (~ In x l -> cb = []).
Proof.
  intro Hnd. unfold removeWithNotification. cbv zeta. rewrite (indexOf_spec Nat.eqb).
  destruct (first_pos Nat.eqb l x) as [n|] eqn:E; cbn [pos_res].
  - apply (first_pos_some Nat.eqb neqb_ok) in E as [E _].
    destruct (Z.eqb_spec (Z.of_nat n) (-1)); [lia|].
    rewrite (doRemove_eq _ _ _ x) by (rewrite ?Nat2Z.id; auto; lia). cbn [obind].
    assert (Hlt : (n < length l)%nat) by (apply nth_error_Some; congruence).
    destruct (split_elem l (Z.of_nat n)) as (l1 & y & l2 & -> & Hl); [zl|].
    rewrite <- (Nat2Z.id n) in E. rewrite nth_error_mid in E by lia. injection E as ->.
    rewrite delete_at_app by lia. rewrite rm_mid by assumption.
    eexists; split; [reflexivity|]. split; [eauto|]. intro H. destruct H. apply in_elt.
  - apply (first_pos_none Nat.eqb neqb_ok) in E. cbn. rewrite rm_not_in by assumption.
    exists []. split; [reflexivity|]. split; [contradiction|reflexivity].
Qed.

(** the callbacks of each stage keep isLoaded equal to non-emptiness *)
Fixpoint stages_ok (data : list nat) (st : list (list nat * list (@callback nat))) : Prop :=
  match st with
  | [] => True
  | (d, cb) :: st' => fold_left (didContents (zlen d)) cb (ne data) = ne d /\ stages_ok d st'
  end.

Lemma ne_zlen l : ne l = negb (zlen l =? 0).
Proof. destruct l; [reflexivity|]. cbn [ne]. destruct (Z.eqb_spec (zlen (n :: l)) 0); [zl|reflexivity]. Qed.

Lemma loaded_didAddAll size l i b :
  fold_left (didContents size) (didAddAll i l [DidChange]) b
  = b || ((i <=? size - 1) && (size - 1 <? i + zlen l)).
Proof.
  revert i b; induction l as [|e l IH]; intros i b; cbn [didAddAll fold_left app].
  - destruct b; cbn; [reflexivity|]. change (zlen (@nil nat)) with 0. lia.
  - rewrite IH. cbn [didContents].
    assert (zlen (e :: l) = zlen l + 1) as -> by zl. pose proof (zlen_nonneg l).
    destruct (Z.eqb_spec i (size - 1)); destruct b; lia.
Qed.

Lemma loaded_didRemoveDown size l i b :
  fold_left (didContents size) (didRemoveDown l i ++ [DidChange]) b
  = if (size =? 0) && ne l then false else b.
Proof.
  revert i b; induction l as [|e l IH]; intros i b; cbn [didRemoveDown fold_left app].
  - cbn. now rewrite andb_false_r.
  - rewrite IH. cbn [didContents ne]. rewrite andb_true_r.
    destruct (size =? 0); cbn; [|reflexivity]. now destruct (ne l).
Qed.

Lemma doRemove_some data p d x cb : doRemove 0%nat data p = Some (d, x, cb) ->
  nth_error data (Z.to_nat p) = Some x /\ d = delete_at (Z.to_nat p) data
  /\ cb = [DidRemove p x; DidChange] /\ 0 <= p < zlen data.
Proof.
  intro H. destruct (Z_lt_ge_dec p 0) as [Hl|Hl].
  { unfold doRemove in H. rewrite zget_none in H by lia. discriminate. }
  destruct (Z_lt_ge_dec p (zlen data)) as [Hr|Hr].
  2: { unfold doRemove in H. rewrite zget_none in H by lia. discriminate. }
  destruct (nelem_at data p) as [y Hy]; [lia|].
  rewrite (doRemove_eq _ _ _ y) in H by (auto; lia). injection H as <- <- <-. repeat split; auto; lia.
Qed.

Lemma remove_stage_ok data p x : nth_error data (Z.to_nat p) = Some x -> 0 <= p < zlen data ->
  fold_left (didContents (zlen (delete_at (Z.to_nat p) data))) [DidRemove p x; DidChange] (ne data)
  = ne (delete_at (Z.to_nat p) data).
Proof.
  intros Hx Hp. cbn [fold_left didContents]. rewrite (ne_zlen (delete_at _ _)).
  destruct (zlen (delete_at (Z.to_nat p) data) =? 0); [reflexivity|]. cbn.
  rewrite ne_zlen. destruct (Z.eqb_spec (zlen data) 0); [lia|reflexivity].
Qed.

Lemma removeStages_ok ps data d : removePositions 0%nat data ps = Some d ->
  exists st, removeStages data ps = Some st /\ final data st = d /\ stages_ok data st.
Proof.
  revert data; induction ps as [|p ps IH]; intros data H; cbn [removePositions removeStages] in *.
  - injection H as <-. exists []. cbn. auto.
  - destruct (doRemove 0%nat data p) as [[[d1 x] cb]|] eqn:E; [|discriminate]. cbn [obind] in *.
    destruct (IH _ H) as (st & -> & Hf & Hs). cbn [obind].
    eexists; split; [reflexivity|]. cbn [final stages_ok]. split; [assumption|]. split; [|assumption].
    apply doRemove_some in E as (Hx & -> & -> & Hp). now apply remove_stage_ok.
Qed.

Lemma scan_snd c data i : map snd (scanRemoved Nat.eqb i data c) = filter (fun x => member Nat.eqb x c) data.
Proof.
  revert i; induction data as [|v data IH]; intro i; cbn [scanRemoved filter]; [reflexivity|].
  rewrite (firstMatch_spec Nat.eqb neqb_ok). destruct (member Nat.eqb v c); cbn [map snd]; now rewrite IH.
Qed.

Lemma filter_partition (p : nat -> bool) l : Permutation l (filter (fun x => negb (p x)) l ++ filter p l).
Proof.
  induction l as [|x l IH]; cbn; [constructor|]. destruct (p x); cbn.
  - now apply Permutation_cons_app.
  - now apply perm_skip.
Qed.

Definition effect_good (data : list nat) (p : op nat) st (R A : list nat) : Prop :=
  Permutation (data ++ A) (final data st ++ R) /\ incl R data /\ NoDup A
  /\ (forall x, In x A -> ~ In x data) /\ (forall x, In x A -> In x (op_args p) \/ In x data).

Lemma effect_trivial data p : effect_good data p [] [] [].
Proof.
  unfold effect_good. cbn. split; [apply Permutation_refl|]. split; [apply incl_nil_l|]. split; [constructor|]. tauto.
Qed.

Lemma insert_all_perm i (l data : list nat) : Permutation (data ++ l) (insert_all_at i l data ++ []).
Proof.
  rewrite app_nil_r. unfold insert_all_at. rewrite <- (firstn_skipn i data) at 1.
  rewrite <- app_assoc. apply Permutation_app_head, Permutation_app_comm.
Qed.

Ltac cond H := match type of H with (if ?b then _ else _) = _ => destruct b eqn:?; try discriminate H end.

Lemma insert_all_stage i l data : 0 <= i <= zlen data -> l <> [] ->
  fold_left (didContents (zlen (insert_all_at (Z.to_nat i) l data))) (didAddAll i l [DidChange]) (ne data)
  = ne (insert_all_at (Z.to_nat i) l data).
Proof.
  intros Hi Hl. rewrite loaded_didAddAll, !ne_zlen.
  assert (zlen (insert_all_at (Z.to_nat i) l data) = zlen data + zlen l) as ->.
  { destruct (split_at data i) as (l1 & l2 & -> & E); [lia|].
    unfold insert_all_at. rewrite firstn_exact, skipn_exact by zl. zl. }
  destruct l; [congruence|]. assert (0 < zlen (n :: l)) by zl. pose proof (zlen_nonneg data). lia.
Qed.

Lemma fresh_args data c x : In x (fresh Nat.eqb data (elems data c)) -> In x (elems data c) /\ ~ In x data.
Proof. rewrite (fresh_in Nat.eqb neqb_ok). tauto. Qed.

Lemma bulk_good data p i c :
  0 <= i <= zlen data ->
  (forall l, c = Ext l -> op_args p = l) ->
  effect_good data p [(insert_all_at (Z.to_nat i) (fresh Nat.eqb data (elems data c)) data,
                       didAddAll i (fresh Nat.eqb data (elems data c)) [DidChange])] []
              (fresh Nat.eqb data (elems data c)).
Proof.
  intros Hi Ha. unfold effect_good. cbn [final].
  split; [apply insert_all_perm|]. split; [apply incl_nil_l|].
  split; [apply (fresh_NoDup Nat.eqb neqb_ok)|].
  split; intros x Hx; apply fresh_args in Hx as [Hx Hn]; [assumption|].
  destruct c; cbn in Hx; [|now right]. left. now rewrite (Ha _ eq_refl).
Qed.

Lemma move_perm (data : list nat) i j x : 0 <= i -> nth_error data (Z.to_nat i) = Some x ->
  Permutation (data ++ []) (move (Z.to_nat i) (Z.to_nat j) x data ++ []).
Proof. intros Hi Hx. rewrite !app_nil_r. now apply perm_move. Qed.

Lemma move_ne (data : list nat) i j x : nth_error data i = Some x -> ne data = ne (move i j x data).
Proof.
  intro H. pose proof (perm_move i j x data H) as P. destruct data; destruct (move i j x _); auto.
  - apply Permutation_nil in P. discriminate.
  - symmetry in P. apply Permutation_nil in P. discriminate.
Qed.

Lemma list_effect_good data p st R A :
  NoDup data -> op_ok Nat.eqb data p -> list_effect data p = Some (st, R, A) ->
  effect_good data p st R A /\ stages_ok data st.
Proof.
  intros Hnd Hok H. pose proof (zlen_nonneg data) as Hpos.
  assert (Htriv : effect_good data p [] [] [] /\ stages_ok data [])
    by (split; [apply effect_trivial|exact I]).
  destruct p; cbn [list_effect] in H; cbv zeta in H; cbn [op_ok] in Hok.
  - (* Add *) cond H; injection H as <- <- <-; [exact Htriv|].
    rewrite (contains_member Nat.eqb neqb_ok) in Heqb. apply (member_not_in _ neqb_ok) in Heqb.
    unfold effect_good. cbn [final]. rewrite app_nil_r.
    split; [|cbn; split; [|exact I]].
    + split; [apply Permutation_refl|]. split; [apply incl_nil_l|].
      split; [repeat constructor; tauto|].
      split; intros x [<-|[]]; [assumption|]. left; now left.
    + destruct (Z.eqb_spec (zlen data) (zlen (data ++ [e]) - 1)); [|zl]. destruct data; reflexivity.
  - (* AddAll *) rewrite (getNonDuplicates_ok Nat.eqb 0%nat neqb_ok) in H by assumption. cond H.
    + injection H as <- <- <-. exact Htriv.
    + rewrite doInsertAll_eq in H by lia. injection H as <- <- <-. split.
      * apply bulk_good; [lia|]. intros l ->. reflexivity.
      * cbn [stages_ok]. split; [|exact I]. apply insert_all_stage; [lia|].
        intro E. rewrite E in Heqb. discriminate.
  - (* Insert *) cond H. cond H.
    + injection H as <- <- <-. exact Htriv.
    + rewrite doInsert_eq in H by lia. injection H as <- <- <-.
      rewrite (contains_member Nat.eqb neqb_ok) in Heqb0. apply (member_not_in _ neqb_ok) in Heqb0.
      unfold effect_good. cbn [final]. split; [|cbn [stages_ok fold_left didContents]; split; [|exact I]].
      * rewrite app_nil_r. split; [apply perm_insert|]. split; [apply incl_nil_l|].
        split; [repeat constructor; tauto|].
        split; intros x [<-|[]]; [assumption|]. left; now left.
      * pose proof (insert_all_stage i [e] data) as S. unfold insert_at. unfold insert_all_at in S.
        cbn [didAddAll fold_left app didContents] in S. apply S; [lia|discriminate].
  - (* InsertAll *) cond H. rewrite (getNonDuplicates_ok Nat.eqb 0%nat neqb_ok) in H by assumption. cond H.
    + injection H as <- <- <-. exact Htriv.
    + rewrite doInsertAll_eq in H by lia. injection H as <- <- <-. split.
      * apply bulk_good; [lia|]. intros l ->. reflexivity.
      * cbn [stages_ok]. split; [|exact I]. apply insert_all_stage; [lia|].
        intro E. rewrite E in Heqb0. discriminate.
  - (* MoveObject *) cond H.
    rewrite (indexOf_spec Nat.eqb) in *.
    destruct (first_pos Nat.eqb data e) as [n|] eqn:E; cbn [pos_res] in *; [|discriminate].
    apply (first_pos_some Nat.eqb neqb_ok) in E as [E _].
    assert (Hlt : (n < length data)%nat) by (apply nth_error_Some; congruence).
    destruct (Z_lt_ge_dec i 0); [rewrite doMove_bad in H by zl; discriminate|].
    destruct (Z_lt_ge_dec i (zlen data)); [|rewrite doMove_bad in H by zl; discriminate].
    rewrite (doMove_eq _ _ _ e) in H by (rewrite ?Nat2Z.id; auto; lia).
    injection H as <- <- <-. unfold effect_good. cbn [final stages_ok]. split; [split|split].
    + apply move_perm; [lia|]. now rewrite Nat2Z.id.
    + split; [apply incl_nil_l|]. split; [constructor|]. cbn. tauto.
    + rewrite Nat2Z.id. destruct (Z.of_nat n =? i); cbn; now apply move_ne.
    + exact I.
  - (* Move *) cond H.
    destruct (nelem_at data i) as [x Hx]; [lia|].
    destruct (Z_lt_ge_dec j (zlen data)); [|rewrite doMove_bad in H by zl; discriminate].
    rewrite (doMove_eq _ _ _ x) in H by (auto; lia).
    injection H as <- <- <-. unfold effect_good. cbn [final stages_ok]. split; [split|split].
    + apply move_perm; [lia|assumption].
    + split; [apply incl_nil_l|]. split; [constructor|]. cbn. tauto.
    + destruct (i =? j); cbn; now apply move_ne.
    + exact I.
  - (* RemoveAt *) cond H.
    destruct (doRemove 0%nat data i) as [[[d x] cb]|] eqn:E; [|discriminate]. injection H as <- <- <-.
    apply doRemove_some in E as (Hx & -> & -> & Hp). unfold effect_good. cbn [final stages_ok].
    split; [|split; [now apply remove_stage_ok|exact I]].
    rewrite app_nil_r. split; [now apply perm_delete|].
    split; [intros y [<-|[]]; eapply nth_error_In; eassumption|]. split; [constructor|]. cbn. tauto.
  - (* Remove *) cond H; [injection H as <- <- <-; exact Htriv|].
    destruct (doRemove 0%nat data _) as [[[d x] cb]|] eqn:E; [|discriminate]. injection H as <- <- <-.
    apply doRemove_some in E as (Hx & -> & -> & Hp). unfold effect_good. cbn [final stages_ok].
    split; [|split; [now apply remove_stage_ok|exact I]].
    rewrite app_nil_r. split; [now apply perm_delete|].
    split; [intros y [<-|[]]; eapply nth_error_In; eassumption|]. split; [constructor|]. cbn. tauto.
  - (* RemoveRange *) cond H. cond H. cond H. rewrite doRemoveRange_eq in H by lia.
    injection H as <- <- <-.
    destruct (split_at data i) as (l1 & t & -> & Hl1); [lia|].
    destruct (split_at t (j - i)) as (l2 & l3 & -> & Hl2); [zl|].
    assert (E2 : skipn (Z.to_nat i) (l1 ++ l2 ++ l3) = l2 ++ l3) by (apply skipn_exact; zl).
    assert (E3 : firstn (Z.to_nat (j - i)) (l2 ++ l3) = l2) by (apply firstn_exact; zl).
    rewrite E2, E3.
    assert (E : delete_range (Z.to_nat i) (Z.to_nat j) (l1 ++ l2 ++ l3) = l1 ++ l3).
    { unfold delete_range. rewrite firstn_exact by zl.
      rewrite app_assoc, skipn_exact by zl. reflexivity. }
    rewrite E. unfold effect_good. cbn [final stages_ok]. split; [|split; [|exact I]].
    + rewrite app_nil_r. split.
      * rewrite <- app_assoc. apply Permutation_app_head, Permutation_app_comm.
      * split; [intros y Hy; rewrite !in_app_iff; auto|]. split; [constructor|]. cbn. tauto.
    + rewrite loaded_didRemoveDown.
      assert (ne (rev l2) = ne l2) as ->.
      { rewrite !ne_zlen. unfold zlen. now rewrite rev_length. }
      rewrite !ne_zlen. destruct (Z.eqb_spec (zlen (l1 ++ l3)) 0) as [Z0|Z0]; cbn.
      * destruct (Z.eqb_spec (zlen l2) 0); cbn; [|reflexivity].
        destruct (Z.eqb_spec (zlen (l1 ++ l2 ++ l3)) 0); [reflexivity|zl].
      * destruct (Z.eqb_spec (zlen (l1 ++ l2 ++ l3)) 0); [zl|reflexivity].
  - (* RemoveAll *)
    pose proof (removePositions_scan Nat.eqb 0%nat neqb_ok (elems data c) data []) as HR.
    cbn [app] in HR. change (zlen (@nil nat)) with 0 in HR.
    apply removeStages_ok in HR as (st' & E & Hf & Hs). rewrite E in H. cbn [obind] in H.
    injection H as <- <- <-. split; [|assumption]. unfold effect_good. rewrite Hf, scan_snd, app_nil_r.
    split; [apply filter_partition|]. split; [intros y Hy; apply filter_In in Hy; tauto|].
    split; [constructor|]. cbn. tauto.
  - cond H. injection H as <- <- <-. exact Htriv.
  - (* SetAt *) cond H. cond H.
    destruct (nelem_at data i) as [x Hx]; [lia|].
    rewrite (doSet_eq _ _ _ x) in H by (auto; lia). cbn [obind] in H.
    assert (Hst : forall cb, cb = [DidSet i e x; DidChange] ->
      stages_ok data [(replace_at (Z.to_nat i) e data, cb)]).
    { intros cb ->. cbn. split; [|exact I]. destruct data as [|y data]; [destruct (Z.to_nat i); discriminate|].
      unfold replace_at. destruct (Z.to_nat i); reflexivity. }
    destruct (Nat.eqb_spec e x) as [->|Hne]; injection H as <- <- <-; (split; [|now apply Hst]).
    + unfold effect_good. cbn [final]. rewrite !app_nil_r. split.
      * destruct (split_elem data i) as (l1 & y & l2 & -> & Hl); [lia|].
        rewrite nth_error_mid in Hx by lia. injection Hx as ->. rewrite replace_at_app by lia.
        apply Permutation_refl.
      * split; [apply incl_nil_l|]. split; [constructor|]. cbn. tauto.
    + unfold effect_good. cbn [final]. split; [now apply perm_replace|].
      split; [intros y [<-|[]]; eapply nth_error_In; eassumption|].
      split; [repeat constructor; tauto|].
      assert (Hni : ~ In e data).
      { rewrite (indexOf_spec Nat.eqb) in *.
        destruct (first_pos Nat.eqb data e) as [n|] eqn:E; [|now apply (first_pos_none Nat.eqb neqb_ok)].
        apply (first_pos_some Nat.eqb neqb_ok) in E as [E _]. cbn [pos_res] in *.
        assert (i = Z.of_nat n) by lia. subst i. rewrite Nat2Z.id in Hx. congruence. }
      split; intros y [<-|[]]; [assumption|]. left; now left.
  - (* Clear *) injection H as <- <- <-. unfold effect_good. cbn [final app]. rewrite app_nil_r.
    split; [|cbn; auto]. split; [apply Permutation_refl|]. split; [apply incl_refl|].
    split; [constructor|]. cbn. tauto.
  - injection H as <- <- <-. exact Htriv.
  - injection H as <- <- <-. exact Htriv.
  - injection H as <- <- <-. exact Htriv.
  - injection H as <- <- <-. exact Htriv.
  - injection H as <- <- <-. exact Htriv.
Qed.

(** [list_effect] is the case analysis of [NotifyModel.nstep] on a unique list *)
Lemma removeStages_positions ps data :
  match removeStages data ps, removePositions 0%nat data ps with
  | Some st, Some d => final data st = d
  | None, None => True
  | _, _ => False
  end.
Proof.
  revert data; induction ps as [|p ps IH]; intro data; cbn [removeStages removePositions]; [reflexivity|].
  destruct (doRemove 0%nat data p) as [[[d x] cb]|]; cbn [obind]; [|exact I].
  specialize (IH d). destruct (removeStages d ps), (removePositions 0%nat d ps); cbn; auto.
Qed.

Lemma effect_nstep data p :
  match list_effect data p, nstep Nat.eqb 0%nat true data (L p) with
  | Some (st, _, _), Ret (d, _) _ => final data st = d
  | None, Panic => True
  | _, _ => False
  end.
Proof.
  destruct p; cbn [list_effect nstep andb];
    repeat match goal with |- context [if ?b then _ else _] =>
             lazymatch type of b with bool => destruct b eqn:? end end;
    cbn [obind]; try reflexivity; try exact I.
  - unfold ndoInsertAll. destruct (getNonDuplicates Nat.eqb data (elems data c)) eqn:E; [cbn in *; lia|].
    destruct (doInsertAll data (zlen data) (n :: l)) as [[[d b] cb]|]; cbn; auto.
  - destruct (doInsert 0%nat data i e) as [[d cb]|]; cbn; auto.
  - unfold ndoInsertAll. destruct (getNonDuplicates Nat.eqb data (elems data c)) eqn:E; [cbn in *; lia|].
    destruct (doInsertAll data i (n :: l)) as [[[d b] cb]|]; cbn; auto.
  - destruct (doMove data (indexOf Nat.eqb data e) i) as [[[d x] cb]|]; cbn; auto.
  - destruct (doMove data i j) as [[[d x] cb]|]; cbn; auto.
  - destruct (doRemove 0%nat data i) as [[[d x] cb]|]; cbn; auto.
  - destruct (doRemove 0%nat data (indexOf Nat.eqb data e)) as [[[d x] cb]|]; cbn; auto.
  - destruct (doRemoveRange data i j) as [[[d x] cb]|]; cbn; auto.
  - pose proof (removeStages_positions (rev (map fst (scanRemoved Nat.eqb 0 data (elems data c)))) data) as H.
    destruct (removeStages data _), (removePositions 0%nat data _); cbn; try contradiction; auto.
    destruct (scanRemoved Nat.eqb 0 data (elems data c)) as [|[q y] pr]; cbn; auto.
  - unfold doGet, zget. destruct (i <? 0) eqn:E; [lia|].
    destruct (nelem_at data i) as [x Hx]; [lia|]. rewrite Hx. cbn. reflexivity.
  - destruct (doSet data i e) as [[[d x] cb]|]; cbn; auto. destruct (Nat.eqb e x); cbn; reflexivity.
Qed.
