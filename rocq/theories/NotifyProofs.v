From Verif Require Import Base ListModel ListSpec ListProofs NotifyModel NotifySpec.

Section ObserverLemmas.
  Context {A : Type}.

  Lemma observes_one n (s s' : list A) : observes n s s' -> observes_all [n] s s'.
  Proof. intro H. econstructor; [exact H|constructor]. Qed.

  Lemma observes_functional n (s s1 s2 : list A) : observes n s s1 -> observes n s s2 -> s1 = s2.
  Proof. intros H1 H2. inversion H1; subst; inversion H2; subst; reflexivity || congruence. Qed.

  Lemma observes_all_functional ns (s s1 s2 : list A) :
    observes_all ns s s1 -> observes_all ns s s2 -> s1 = s2.
  Proof.
    intro H. revert s2. induction H as [s|n ns s s1 s1' H _ IH]; intros s2 H2; inversion H2; subst; auto.
    apply IH. assert (s1 = s3) as -> by (eapply observes_functional; eassumption). assumption.
  Qed.

  Lemma observes_all_app ns1 ns2 (s s1 s2 : list A) :
    observes_all ns1 s s1 -> observes_all ns2 s1 s2 -> observes_all (ns1 ++ ns2) s s2.
  Proof. induction 1; cbn; [auto|]. intro. econstructor; eauto. Qed.

  Lemma remove_at_positions_below i (s : list A) p ps : p < i ->
    remove_at_positions i s (p :: ps) = remove_at_positions i s ps.
  Proof.
    revert i; induction s as [|x s IH]; intros i H; cbn; [reflexivity|].
    destruct (Z.eqb_spec i p); [lia|]. cbn. rewrite !IH by lia. reflexivity.
  Qed.

  Lemma increasing_not_in lo ps n q : increasing lo ps n -> q < lo -> existsb (Z.eqb q) ps = false.
  Proof.
    revert lo; induction ps as [|p ps IH]; intros lo; cbn; [reflexivity|].
    intros [H1 H2] Hq. destruct (Z.eqb_spec q p); [lia|]. cbn. eapply IH; [exact H2|lia].
  Qed.

  Lemma positionsFrom_increasing (l : list A) i n : i + zlen l <= n -> increasing i (positionsFrom i l) n.
  Proof.
    revert i; induction l as [|x l IH]; intros i H; cbn; [exact I|].
    rewrite zlen_cons in H. split; [zl|]. apply IH. lia.
  Qed.

  Lemma positionsFrom_length (l : list A) i : length (positionsFrom i l) = length l.
  Proof. revert i; induction l; intro i; cbn; auto. Qed.

  Lemma positionsFrom_values (pre l post : list A) :
    Forall2 (fun x p => nth_error (pre ++ l ++ post) (Z.to_nat p) = Some x) l (positionsFrom (zlen pre) l).
  Proof.
    revert pre; induction l as [|x l IH]; intro pre; cbn [positionsFrom]; [constructor|].
    constructor.
    - cbn [app]. apply nth_error_mid. reflexivity.
    - specialize (IH (pre ++ [x])). replace (zlen (pre ++ [x])) with (zlen pre + 1) in IH by zl.
      rewrite <- app_assoc in IH. exact IH.
  Qed.

  Lemma remove_range_positions (l post : list A) i :
    remove_at_positions i (l ++ post) (positionsFrom i l) = post.
  Proof.
    revert i; induction l as [|x l IH]; intro i; cbn [app positionsFrom].
    - revert i; induction post as [|y post IHp]; intro i; cbn; [reflexivity|]. f_equal. apply IHp.
    - cbn [remove_at_positions existsb]. rewrite Z.eqb_refl. cbn [orb].
      rewrite remove_at_positions_below by lia. apply IH.
  Qed.

  Lemma remove_at_positions_prefix (pre s : list A) i ps n :
    increasing (i + zlen pre) ps n ->
    remove_at_positions i (pre ++ s) ps = pre ++ remove_at_positions (i + zlen pre) s ps.
  Proof.
    revert i; induction pre as [|x pre IH]; intros i H; cbn [app remove_at_positions].
    - f_equal. zl.
    - rewrite zlen_cons in *.
      rewrite (increasing_not_in _ ps n i H) by zl.
      f_equal. replace (i + (1 + zlen pre)) with (i + 1 + zlen pre) in * by lia.
      now apply IH.
  Qed.
End ObserverLemmas.

Section NotifyProofs.
  Context {A : Type} (eqb : A -> A -> bool) (nilv : A).
  Hypothesis eqb_ok : forall x y, reflect (x = y) (eqb x y).
  Notation member := (member eqb).





  (** *** RemoveAll *)
  Lemma firstMatch_spec v c : firstMatch eqb v c = if member v c then Some v else None.
  Proof.
    induction c as [|x c IH]; cbn; [reflexivity|].
    destruct (eqb_ok v x) as [->|Hne]; cbn; [reflexivity|]. exact IH.
  Qed.

  Lemma removePositions_app (d : list A) ps qs :
    removePositions nilv d (ps ++ qs) = obind (removePositions nilv d ps) (fun d' => removePositions nilv d' qs).
  Proof.
    revert d; induction ps as [|p ps IH]; intro d; cbn [app removePositions obind]; [reflexivity|].
    destruct (doRemove nilv d p) as [[[d' x] cb]|]; cbn [obind]; [apply IH|reflexivity].
  Qed.

  Lemma removePositions_scan c data pre :
    removePositions nilv (pre ++ data) (rev (map fst (scanRemoved eqb (zlen pre) data c)))
    = Some (pre ++ filter (fun x => negb (member x c)) data).
  Proof.
    revert pre; induction data as [|v data IH]; intro pre; cbn [scanRemoved]; [reflexivity|].
    rewrite firstMatch_spec.
    specialize (IH (pre ++ [v])).
    replace (zlen (pre ++ [v])) with (zlen pre + 1) in IH by zl.
    rewrite <- !app_assoc in IH. cbn [app] in IH.
    cbn [filter].
    destruct (member v c) eqn:E; cbn [negb].
    - cbn [map fst rev]. rewrite removePositions_app, IH. cbn [obind removePositions].
      rewrite (doRemove_eq nilv _ _ v) by (zl || (apply nth_error_mid; zl)).
      cbn [obind]. rewrite delete_at_app by zl. reflexivity.
    - exact IH.
  Qed.

  Lemma scan_increasing c data i : increasing i (map fst (scanRemoved eqb i data c)) (i + zlen data).
  Proof.
    assert (Hweak : forall ps lo lo' n, lo' <= lo -> increasing lo ps n -> increasing lo' ps n).
    { intros [|p ps] lo lo' n Hle; cbn; [auto|]. intros [H1 H2]. split; [lia|assumption]. }
    revert i; induction data as [|v data IH]; intro i; cbn [scanRemoved]; [exact I|].
    specialize (IH (i + 1)). replace (i + zlen (v :: data)) with (i + 1 + zlen data) by zl.
    destruct (firstMatch eqb v c); cbn [map fst increasing].
    - split; [zl|assumption].
    - eapply Hweak; [|exact IH]. lia.
  Qed.

  Lemma scan_values c data pre :
    Forall2 (fun x p => nth_error (pre ++ data) (Z.to_nat p) = Some x)
      (map snd (scanRemoved eqb (zlen pre) data c)) (map fst (scanRemoved eqb (zlen pre) data c)).
  Proof.
    revert pre; induction data as [|v data IH]; intro pre; cbn [scanRemoved]; [constructor|].
    rewrite firstMatch_spec.
    specialize (IH (pre ++ [v])).
    replace (zlen (pre ++ [v])) with (zlen pre + 1) in IH by zl.
    rewrite <- !app_assoc in IH. cbn [app] in IH.
    destruct (member v c); cbn [map fst snd]; [|exact IH].
    constructor; [|exact IH]. apply nth_error_mid. reflexivity.
  Qed.



  Lemma remove_at_positions_scan c data i :
    remove_at_positions i data (map fst (scanRemoved eqb i data c))
    = filter (fun x => negb (member x c)) data.
  Proof.
    revert i; induction data as [|v data IH]; intro i; cbn [remove_at_positions scanRemoved filter]; [reflexivity|].
    rewrite firstMatch_spec.
    destruct (member v c); cbn [map fst negb].
    - cbn [existsb]. rewrite Z.eqb_refl. cbn [orb]. rewrite remove_at_positions_below by lia. apply IH.
    - rewrite (increasing_not_in (i + 1) _ (i + 1 + zlen data)); [|apply scan_increasing|lia].
      f_equal. apply IH.
  Qed.

  Lemma scan_nil_filter c data i : scanRemoved eqb i data c = [] ->
    filter (fun x => negb (member x c)) data = data.
  Proof.
    revert i; induction data as [|v data IH]; intro i; cbn [scanRemoved filter]; [reflexivity|].
    rewrite firstMatch_spec. destruct (member v c); [discriminate|]. cbn [negb]. intro H.
    f_equal. eapply IH; exact H.
  Qed.

  Lemma scan_existsb c data i :
    existsb (fun x => member x c) data = match scanRemoved eqb i data c with [] => false | _ => true end.
  Proof.
    revert i; induction data as [|v data IH]; intro i; cbn [scanRemoved existsb]; [reflexivity|].
    rewrite firstMatch_spec. destruct (member v c); [reflexivity|]. cbn [orb]. apply IH.
  Qed.

  (** *** ranges *)

  (** *** one step *)
  (** the bulk argument is not the list itself, or the list is unique *)
  Definition not_self (unique : bool) (o : nop A) : Prop :=
    match o with
    | L (AddAll Self) | L (InsertAll _ Self) => unique = true
    | _ => True
    end.

  Lemma addNotification_observes (s xs : list A) i : 0 <= i <= zlen s -> xs <> [] ->
    observes (addNotification i xs) s (insert_all_at (Z.to_nat i) xs s).
  Proof.
    intros H Hne. unfold addNotification. destruct xs as [|x [|y xs]].
    - congruence.
    - apply (ObsAdd s x i). lia.
    - apply ObsAddMany. lia.
  Qed.

  Lemma ndoInsertAll_observes (data l : list A) i late d ns :
    0 <= i <= zlen data -> (forall d, late d = l) ->
    ndoInsertAll data i l late = Some (d, ns) ->
    observes_all ns data d /\ d = insert_all_at (Z.to_nat i) l data.
  Proof.
    intros H Hl. unfold ndoInsertAll. destruct l as [|x l].
    - intros [= <- <-]. split; [constructor|]. unfold insert_all_at. cbn. symmetry. apply firstn_skipn.
    - rewrite doInsertAll_eq by lia. cbn [obind]. intros [= <- <-]. rewrite Hl.
      split; [|reflexivity]. apply observes_one. apply addNotification_observes; [lia|discriminate].
  Qed.

  Lemma removeNotification_observes (s : list A) objs ps p :
    increasing 0 ps (zlen s) -> objs <> [] ->
    Forall2 (fun x q => nth_error s (Z.to_nat q) = Some x) objs ps ->
    hd_error ps = Some p ->
    observes (removeNotification objs ps p) s (remove_at_positions 0 s ps).
  Proof.
    intros Hinc Hne HF Hp. unfold removeNotification.
    destruct objs as [|x [|y objs]]; [congruence| |].
    - inversion HF as [|? q ? ps' Hq HF']; subst. inversion HF'; subst. cbn in Hp. injection Hp as ->.
      cbn in Hinc. destruct Hinc as [[H1 H2] _].
      destruct (split_elem s p) as (l1 & z & l2 & -> & Hl); [lia|].
      rewrite nth_error_mid in Hq by lia. injection Hq as ->.
      replace (remove_at_positions 0 (l1 ++ x :: l2) [p]) with (delete_at (Z.to_nat p) (l1 ++ x :: l2)).
      + constructor; [lia|]. apply nth_error_mid. lia.
      + rewrite delete_at_app by lia. symmetry.
        rewrite (remove_at_positions_prefix _ _ 0 [p] (p + 1)) by (cbn; lia).
        cbn [remove_at_positions existsb].
        destruct (Z.eqb_spec (0 + zlen l1) p); [|lia]. cbn [orb]. f_equal.
        rewrite remove_at_positions_below by lia. clear.
        generalize (0 + zlen l1 + 1) as k. induction l2 as [|y l2 IH]; intro k; cbn; [reflexivity|].
        f_equal. apply IH.
    - apply ObsRemoveMany; [assumption| |assumption]. eapply Forall2_len; eassumption.
  Qed.

  Ltac cond H :=
    match type of H with
    | (if ?b then Panic else _) = _ => destruct b eqn:?Hg; [discriminate H|]
    | (if ?b then nret _ _ _ else _) = _ => destruct b eqn:?Hg; [injection H as <- <- <-; constructor|]
    end.

  Lemma elem_at (data : list A) i : 0 <= i < zlen data -> exists x, nth_error data (Z.to_nat i) = Some x.
  Proof. intro. apply nth_error_lt_some. zl. Qed.

  Lemma nstep_observes unique data o d ns r : not_self unique o ->
    nstep eqb nilv unique data o = Ret (d, ns) r -> observes_all ns data d.
  Proof.
    intros Hns H. pose proof (zlen_nonneg data) as Hpos.
    destruct o as [o|e|e|i e]; [destruct o|..]; cbn [nstep] in H.
    - (* Add *) cond H. injection H as <- <- <-. apply observes_one.
      replace (data ++ [e]) with (insert_at (Z.to_nat (zlen data)) e data).
      + constructor. lia.
      + rewrite <- (app_nil_r data) at 2. apply insert_at_app. reflexivity.
    - (* AddAll *) cond H.
      match type of H with nlift (ndoInsertAll data ?i ?l ?late) _ = _ =>
        destruct (ndoInsertAll data i l late) as [[d' ns']|] eqn:E; cbn [nlift] in H; [|discriminate] end.
      injection H as <- <- <-.
      eapply ndoInsertAll_observes in E; [|lia|].
      + apply E.
      + intro d. cbv beta. destruct unique; [reflexivity|]. destruct c; [reflexivity|].
        cbn in Hns. discriminate.
    - (* Insert *) cond H. cond H.
      rewrite (doInsert_eq nilv) in H by lia. injection H as <- <- <-.
      apply observes_one. constructor. lia.
    - (* InsertAll *) cond H. cond H.
      match type of H with nlift (ndoInsertAll data ?i ?l ?late) _ = _ =>
        destruct (ndoInsertAll data i l late) as [[d' ns']|] eqn:E; cbn [nlift] in H; [|discriminate] end.
      injection H as <- <- <-.
      eapply ndoInsertAll_observes in E; [|lia|].
      + apply E.
      + intro d. cbv beta. destruct unique; [reflexivity|]. destruct c; [reflexivity|].
        cbn in Hns. discriminate.
    - (* MoveObject *) cond H.
      rewrite (indexOf_spec eqb) in *.
      destruct (first_pos eqb data e) as [n|] eqn:E; cbn [pos_res] in *; [|discriminate].
      apply first_pos_some in E as [E _]; [|assumption].
      assert (Hlt : (n < length data)%nat) by (apply nth_error_Some; congruence).
      destruct (Z_lt_ge_dec i 0); [rewrite doMove_bad in H by zl; discriminate|].
      destruct (Z_lt_ge_dec i (zlen data)); [|rewrite doMove_bad in H by zl; discriminate].
      rewrite (doMove_eq _ _ _ e) in H by (rewrite ?Nat2Z.id; auto; lia).
      injection H as <- <- <-. apply observes_one. constructor; [lia| |lia].
      now rewrite Nat2Z.id.
    - (* Move *) cond H.
      destruct (elem_at data i) as [x Hx]; [lia|].
      destruct (Z_lt_ge_dec j (zlen data)); [|rewrite doMove_bad in H by zl; discriminate].
      rewrite (doMove_eq _ _ _ x) in H by (auto; lia).
      injection H as <- <- <-. apply observes_one. constructor; [lia|assumption|lia].
    - (* RemoveAt *) cond H.
      destruct (elem_at data i) as [x Hx]; [lia|].
      rewrite (doRemove_eq nilv _ _ x) in H by (auto; lia). injection H as <- <- <-.
      apply observes_one. constructor; [lia|assumption].
    - (* Remove *) cond H.
      rewrite (indexOf_spec eqb) in *.
      destruct (first_pos eqb data e) as [n|] eqn:E; cbn [pos_res] in *; [|discriminate].
      apply first_pos_some in E as [E _]; [|assumption].
      rewrite (doRemove_eq nilv _ _ e) in H by (rewrite ?Nat2Z.id; auto; lia).
      injection H as <- <- <-. apply observes_one. constructor; [lia|].
      now rewrite Nat2Z.id.
    - (* RemoveRange *) cond H. cond H. cond H.
      rewrite doRemoveRange_eq in H by lia. cbn [nlift] in H.
      destruct (split_at data i) as (l1 & t & -> & Hl1); [lia|].
      destruct (split_at t (j - i)) as (l2 & l3 & -> & Hl2); [zl|].
      assert (E2 : skipn (Z.to_nat i) (l1 ++ l2 ++ l3) = l2 ++ l3) by (apply skipn_exact; zl).
      assert (E3 : firstn (Z.to_nat (j - i)) (l2 ++ l3) = l2) by (apply firstn_exact; zl).
      rewrite E2, E3 in H.
      assert (E : delete_range (Z.to_nat i) (Z.to_nat j) (l1 ++ l2 ++ l3) = l1 ++ l3).
      { unfold delete_range. rewrite firstn_exact by zl.
        rewrite app_assoc, skipn_exact by zl. reflexivity. }
      rewrite E in H. injection H as <- <- <-.
      destruct (zlen l2 >? 0) eqn:Hz.
      + apply observes_one.
        assert (Hinc : increasing i (positionsFrom i l2) (zlen (l1 ++ l2 ++ l3)))
          by (apply positionsFrom_increasing; zl).
        replace (l1 ++ l3) with (remove_at_positions 0 (l1 ++ l2 ++ l3) (positionsFrom i l2)).
        * apply removeNotification_observes.
          -- destruct l2 as [|x l2]; [zl|]. cbn in *. split; [lia|apply Hinc].
          -- destruct l2; [zl|discriminate].
          -- rewrite <- Hl1. apply positionsFrom_values.
          -- destruct l2; [zl|reflexivity].
        * rewrite (remove_at_positions_prefix _ _ 0 _ (zlen (l1 ++ l2 ++ l3)))
            by (rewrite Hl1; exact Hinc).
          rewrite Hl1. cbn [Z.add]. now rewrite remove_range_positions.
      + destruct l2; [constructor|zl].
    - (* RemoveAll *)
      pose proof (removePositions_scan (elems data c) data []) as HR.
      pose proof (scan_increasing (elems data c) data 0) as Hinc.
      pose proof (scan_values (elems data c) data []) as Hval.
      pose proof (remove_at_positions_scan (elems data c) data 0) as Hrem.
      cbn [app] in *. change (zlen (@nil A)) with 0 in *.
      rewrite HR in H. cbn [nlift] in H.
      destruct (scanRemoved eqb 0 data (elems data c)) as [|[p x] pr] eqn:E.
      + injection H as <- <- <-. rewrite (scan_nil_filter _ _ _ E). constructor.
      + injection H as <- <- <-. apply observes_one. rewrite <- Hrem.
        apply (removeNotification_observes data (map snd ((p, x) :: pr)) (map fst ((p, x) :: pr)) p); [assumption|discriminate|assumption|reflexivity].
    - (* Get *) cond H. destruct (elem_at data i) as [x Hx]; [lia|].
      unfold doGet, zget in H. destruct (Z.ltb_spec i 0); [lia|]. rewrite Hx in H. cbn in H.
      injection H as <- <- <-. constructor.
    - (* Set *) cond H. cbv zeta in H.
      match type of H with (if ?b then _ else _) = _ => destruct b; [discriminate|] end.
      destruct (elem_at data i) as [x Hx]; [lia|].
      rewrite (doSet_eq _ _ _ x) in H by (auto; lia). injection H as <- <- <-.
      destruct (eqb_ok e x) as [->|Hne].
      + replace (replace_at (Z.to_nat i) x data) with data; [constructor|].
        unfold replace_at. rewrite Nat.add_1_r. now apply firstn_skipn_nth.
      + apply observes_one. constructor; [lia|assumption].
    - (* Clear *) injection H as <- <- <-. apply observes_one.
      destruct data as [|x [|y data]]; [constructor| |constructor].
      apply (ObsRemove [x] x 0); [lia|reflexivity].
    - injection H as <- <- <-. constructor.
    - injection H as <- <- <-. constructor.
    - injection H as <- <- <-. constructor.
    - injection H as <- <- <-. constructor.
    - injection H as <- <- <-. constructor.
    - (* AddN *) injection H as <- <- <-. apply observes_one.
      replace (data ++ [e]) with (insert_at (Z.to_nat (zlen data)) e data).
      + constructor. lia.
      + rewrite <- (app_nil_r data) at 2. apply insert_at_app. reflexivity.
    - (* RemoveN *) cond H.
      rewrite (indexOf_spec eqb) in *.
      destruct (first_pos eqb data e) as [n|] eqn:E; cbn [pos_res] in *; [|discriminate].
      apply first_pos_some in E as [E _]; [|assumption].
      rewrite (doRemove_eq nilv _ _ e) in H by (rewrite ?Nat2Z.id; auto; lia).
      injection H as <- <- <-. apply observes_one. constructor; [lia|].
      now rewrite Nat2Z.id.
    - (* SetN *)
      destruct (Z_lt_ge_dec i 0).
      { unfold doSet in H. rewrite zget_none in H by lia. discriminate. }
      destruct (Z_lt_ge_dec i (zlen data)).
      2:{ unfold doSet in H. rewrite zget_none in H by lia. discriminate. }
      destruct (elem_at data i) as [x Hx]; [lia|].
      rewrite (doSet_eq _ _ _ x) in H by (auto; lia). injection H as <- <- <-.
      apply observes_one. constructor; [lia|assumption].
  Qed.

  Lemma nrun_observes unique ops data rs fin :
    Forall (not_self unique) ops ->
    nrun eqb nilv unique data ops = (rs, Some fin) ->
    observes_all (concat (map snd rs)) data fin.
  Proof.
    revert data rs fin; induction ops as [|o ops IH]; intros data rs fin HF; cbn.
    - intros [= <- <-]. constructor.
    - inversion HF; subst.
      destruct (nstep eqb nilv unique data o) as [[d ns] r|] eqn:E; [|discriminate].
      destruct (nrun eqb nilv unique d ops) as [rs' fin'] eqn:E'. intros [= <- ->].
      cbn. eapply observes_all_app; [eapply nstep_observes; eassumption|].
      eapply IH; eassumption.
  Qed.

  (** *** same contents and results as the sequence specification *)
  Definition nagree (m : outcome (list A * list (notification A)) (res A)) (s : option (list A * res A)) : Prop :=
    match m, s with
    | Ret (d, _) r, Some (d', r') => d = d' /\ r = r'
    | Panic, None => True
    | _, _ => False
    end.

  (** every list operation of a notifying list has the result and contents of the plain one *)
  Lemma nstep_step unique data o :
    match nstep eqb nilv unique data (L o), step eqb nilv unique data o with
    | Ret (d, _) r, Ret (d', _) r' => d = d' /\ r = r'
    | Panic, Panic => True
    | _, _ => False
    end.
  Proof.
    pose proof (zlen_nonneg data) as Hpos.
    destruct o; cbn [nstep step];
      repeat match goal with |- context [if ?b then _ else _] =>
               lazymatch b with
               | unique => fail
               | _ => lazymatch type of b with bool => destruct b eqn:? end
               end end; cbn [ret nret];
      try (split; reflexivity); try exact I.
    - unfold ndoInsertAll. destruct (if unique then _ else _) as [|x l] eqn:El.
      + cbn. rewrite app_nil_r. auto.
      + rewrite doInsertAll_eq by lia. cbn [obind nlift lift doAddAll].
        split; [|reflexivity]. unfold insert_all_at.
        rewrite firstn_all2 by zl. rewrite skipn_all2 by zl. now rewrite app_nil_r.
    - destruct (doInsert nilv data i e) as [[d cb]|]; cbn; auto.
    - unfold ndoInsertAll. destruct (if unique then _ else _) as [|x l] eqn:El.
      + rewrite doInsertAll_eq by lia. cbn. unfold insert_all_at. cbn.
        rewrite firstn_skipn. auto.
      + destruct (doInsertAll data i (x :: l)) as [[[d b] cb]|]; cbn; auto.
    - destruct (doMove data (indexOf eqb data e) i) as [[[d x] cb]|]; cbn; auto.
    - destruct (doMove data i j) as [[[d x] cb]|]; cbn; auto.
    - destruct (doRemove nilv data i) as [[[d x] cb]|]; cbn; auto.
    - destruct (doRemove nilv data (indexOf eqb data e)) as [[[d x] cb]|]; cbn; auto.
    - destruct (doRemoveRange data i j) as [[[d x] cb]|]; cbn; auto.
    - (* RemoveAll *)
      pose proof (removePositions_scan (elems data c) data []) as HR.
      cbn [app] in HR. change (zlen (@nil A)) with 0 in HR. rewrite HR. cbn [nlift].
      destruct (removeAllLoop_spec eqb nilv eqb_ok c data [] [] false (elems data c)) as [cb' H].
      { destruct c; cbn; [now left|now right]. }
      rewrite app_nil_r in H. rewrite H. rewrite app_nil_r. cbn [orb].
      rewrite (scan_existsb _ _ 0).
      destruct (scanRemoved eqb 0 data (elems data c)) as [|[p x] pr]; cbn; auto.
    - destruct (doGet data i); cbn; auto.
    - destruct (doSet data i e) as [[[d x] cb]|]; cbn; auto.
  Qed.

  Lemma nrun_run unique ops data :
    (map fst (fst (nrun eqb nilv unique data (map (@L A) ops))),
     snd (nrun eqb nilv unique data (map (@L A) ops))) = run eqb nilv unique data ops.
  Proof.
    revert data; induction ops as [|o ops IH]; intro data; cbn [map nrun run]; [reflexivity|].
    pose proof (nstep_step unique data o) as H.
    destruct (nstep eqb nilv unique data (L o)) as [[d ns] r|], (step eqb nilv unique data o) as [[d' cb] r'|];
      try tauto.
    destruct H as [-> ->]. specialize (IH d').
    destruct (nrun eqb nilv unique d' (map (L (A:=A)) ops)) as [rs fin]. cbn in *. now rewrite <- IH.
  Qed.
End NotifyProofs.
