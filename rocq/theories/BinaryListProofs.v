(** Proofs about BinaryListModel. *)
From Coq Require Import Permutation.
From Verif Require Import Base ListModel ListSpec ListProofs BinaryListModel.

Section P.
  Context {A : Type} (eqb : A -> A -> bool) (nilv : A).
  Context (eqb_ok : forall x y, reflect (x = y) (eqb x y)).
  Local Notation list_do := (list_do eqb nilv).
  Local Notation mem := (member eqb).
  Local Notation fresh := (fresh eqb).

  Lemma list_do_spec u data o : (u = true -> op_ok eqb data o) ->
    list_do u data o = option_map fst (spec_step eqb u data o).
  Proof.
    intro H. pose proof (step_agrees eqb nilv eqb_ok u data o H) as Ha.
    unfold BinaryListModel.list_do. unfold agree in Ha.
    destruct (step eqb nilv u data o) as [[d cb] r|]; destruct (spec_step eqb u data o) as [[d' r']|];
      cbn in *; try contradiction; try reflexivity.
    destruct Ha as [-> _]; reflexivity.
  Qed.

  Lemma list_do_move u data i j x : nth_error data i = Some x -> (j < length data)%nat ->
    list_do u data (Move (Z.of_nat i) (Z.of_nat j)) = Some (move i j x data).
  Proof.
    intros Hx Hj. rewrite list_do_spec by (intros; exact I). cbn [spec_step].
    assert (i < length data)%nat by (apply nth_error_Some; congruence).
    unfold valid.
    replace ((0 <=? Z.of_nat i) && (Z.of_nat i <? zlen data)) with true by zl.
    replace ((0 <=? Z.of_nat j) && (Z.of_nat j <? zlen data)) with true by zl.
    cbn [andb]. rewrite !Nat2Z.id, Hx. reflexivity.
  Qed.

  Definition old (E : list A) (l : list A) := filter (fun x => mem x E) l.
  Definition new (E : list A) (l : list A) := filter (fun x => negb (mem x E)) l.

  (** positions of the elements of [E] in [l], starting at [i] *)
  Fixpoint positions (E l : list A) (i : Z) : list Z :=
    match l with
    | [] => []
    | x :: l' => if mem x E then i :: positions E l' (i + 1) else positions E l' (i + 1)
    end.

  Lemma fresh_NoDup_id l s : NoDup l -> (forall x, In x l -> ~ In x s) -> fresh s l = l.
  Proof.
    revert s; induction l as [|x l IH]; intros s Hnd Hd; cbn; [reflexivity|].
    inversion Hnd; subst.
    destruct (mem x s) eqn:E.
    - apply (member_in eqb eqb_ok) in E. exfalso. apply (Hd x); cbn; auto.
    - f_equal. apply IH; [assumption|]. intros y Hy [->|Hys]; [contradiction|]. apply (Hd y); cbn; auto.
  Qed.

  Definition left (E done : list A) := filter (fun x => negb (mem x done)) E.
  Definition seen (E done : list A) := map (fun x => if mem x done then nilv else x) E.

  Lemma mem_in x l : mem x l = true <-> In x l.
  Proof. apply (member_in eqb eqb_ok). Qed.
  Lemma mem_false x l : mem x l = false <-> ~ In x l.
  Proof. apply (member_not_in eqb eqb_ok). Qed.
  Lemma eqb_refl x : eqb x x = true.
  Proof. destruct (eqb_ok x x); congruence. Qed.

  Lemma mem_snoc x l o : mem x (l ++ [o]) = mem x l || eqb x o.
  Proof. unfold member. rewrite existsb_app. cbn. now rewrite orb_false_r. Qed.

  Lemma find_existing_none o done E j c : o <> nilv -> ~ In o E -> find_existing eqb nilv o (seen E done) j c = None.
  Proof.
    intros Ho. revert j c; induction E as [|x E IH]; intros j c H; [reflexivity|]. cbn.
    destruct (eqb_ok (if mem x done then nilv else x) o) as [Hx|Hx].
    - exfalso. destruct (mem x done); [congruence|]. apply H. left. exact Hx.
    - apply IH. intro; apply H; right; assumption.
  Qed.

  Lemma find_existing_some o done E1 E2 j c : o <> nilv -> ~ In o E1 -> ~ In o done -> ~ In nilv E1 ->
    find_existing eqb nilv o (seen (E1 ++ o :: E2) done) j c
    = Some (j + zlen E1, c + zlen (left E1 done)).
  Proof.
    intros Ho. revert j c; induction E1 as [|x E IH]; intros j c H Hd Hn; cbn [app seen map find_existing].
    - apply mem_false in Hd. rewrite Hd, eqb_refl. cbn. f_equal. f_equal; lia.
    - destruct (eqb_ok (if mem x done then nilv else x) o) as [Hx|Hx].
      + exfalso. destruct (mem x done); [congruence|]. apply H. left. exact Hx.
      + fold (seen (E ++ o :: E2) done). rewrite IH by first [exact Hd | intro; apply H; right; assumption | intro; apply Hn; right; assumption].
        f_equal. unfold left. cbn [filter]. fold (left E done).
        destruct (mem x done) eqn:Em; cbn [negb].
        * rewrite eqb_refl. rewrite zlen_cons. f_equal; lia.
        * destruct (eqb_ok x nilv) as [->|]; [exfalso; apply Hn; left; reflexivity|].
          rewrite !zlen_cons. f_equal; lia.
  Qed.

  Lemma left_snoc_notin E done o : ~ In o E -> left E (done ++ [o]) = left E done.
  Proof.
    intro H. unfold left. apply filter_ext_in. intros x Hx. rewrite mem_snoc.
    destruct (eqb_ok x o) as [->|]; [contradiction|]. now rewrite orb_false_r.
  Qed.
  Lemma seen_snoc_notin E done o : ~ In o E -> seen E (done ++ [o]) = seen E done.
  Proof.
    intro H. unfold seen. apply map_ext_in. intros x Hx. rewrite mem_snoc.
    destruct (eqb_ok x o) as [->|]; [contradiction|]. now rewrite orb_false_r.
  Qed.

  Lemma positions_app E l1 l2 i : positions E (l1 ++ l2) i = positions E l1 i ++ positions E l2 (i + zlen l1).
  Proof.
    revert i; induction l1 as [|x l1 IH]; intro i; cbn [app positions].
    - rewrite zlen_nil. f_equal. lia.
    - rewrite IH, zlen_cons. replace (i + 1 + zlen l1) with (i + (1 + zlen l1)) by lia.
      destruct (mem x E); reflexivity.
  Qed.
  Lemma positions_length E l i : length (positions E l i) = length (old E l).
  Proof. revert i; induction l as [|x l IH]; intro i; cbn; [reflexivity|]. destruct (mem x E); cbn; auto. Qed.

  Lemma old_new_length E l : (length (old E l) + length (new E l) = length l)%nat.
  Proof. unfold old, new. induction l as [|x l IH]; cbn; [reflexivity|]. destruct (mem x E); cbn; lia. Qed.

  Lemma zset_mid {X} (l1 : list X) x l2 i v : i = zlen l1 -> zset (l1 ++ x :: l2) i v = Some (l1 ++ v :: l2).
  Proof. intros ->. now apply zset_app. Qed.

  Definition inv (E objects done : list A) : rstate (A := A) :=
    mkR (old E done ++ left E done)
        (new E done ++ skipn (length (new E done)) objects)
        (positions E done 0 ++ repeat 0 (length E - length (old E done)))
        (zlen (old E done)) (seen E done).

  Lemma left_old_length E done : NoDup E -> NoDup done -> (length (old E done) + length (left E done) = length E)%nat.
  Proof.
    intros HE Hd.
    assert (length (old E done) = length (filter (fun x => mem x done) E)) as ->.
    { apply Permutation.Permutation_length, Permutation.NoDup_Permutation.
      - now apply NoDup_filter.
      - now apply NoDup_filter.
      - intro x. unfold old. rewrite !filter_In, !mem_in. tauto. }
    unfold left. clear. induction E as [|x E IH]; cbn; [reflexivity|]. destruct (mem x done); cbn; lia.
  Qed.

  Lemma skipn_nth_cons {X} (l : list X) n x : nth_error l n = Some x -> skipn n l = x :: skipn (S n) l.
  Proof.
    revert n; induction l as [|y l IH]; intros [|n] H; cbn in *; try discriminate; [congruence|].
    now apply IH.
  Qed.

  Lemma match_one_inv u E done o todo : NoDup E -> NoDup (done ++ o :: todo) -> ~ In nilv E -> o <> nilv ->
    match_one eqb nilv u (zlen done) (inv E (done ++ o :: todo) done)
    = Some (inv E (done ++ o :: todo) (done ++ [o])).
  Proof.
    intros HE Hnd Hn Ho. set (objects := done ++ o :: todo) in *.
    assert (Hod : ~ In o done).
    { intro H. apply NoDup_remove_2 in Hnd. apply Hnd. apply in_or_app; auto. }
    assert (Hdn : NoDup done) by (apply NoDup_app_iff in Hnd; tauto).
    pose proof (old_new_length E done) as Hon.
    assert (Hget : zget (r_objects (inv E objects done)) (zlen done) = Some o).
    { cbn [inv r_objects]. unfold zget. replace (zlen done <? 0) with false by zl.
      rewrite nth_error_app2 by zl. rewrite nth_error_skipn_if.
      replace (length (new E done) + (Z.to_nat (zlen done) - length (new E done)))%nat with (length done) by zl.
      unfold objects. rewrite nth_error_app2 by lia. now rewrite Nat.sub_diag. }
    unfold match_one. rewrite Hget. cbn [obind].
    cbn [inv r_existing r_dup r_list r_indices r_objects].
    destruct (mem o E) eqn:EoE.
    - pose proof EoE as HoE. apply mem_in in HoE.
      apply in_split in HoE. destruct HoE as (E1 & E2 & HE12).
      assert (HnE1 : ~ In o E1).
      { intro H. rewrite HE12 in HE. apply NoDup_remove_2 in HE. apply HE. apply in_or_app; auto. }
      assert (HnE2 : ~ In o E2).
      { intro H. rewrite HE12 in HE. apply NoDup_remove_2 in HE. apply HE. apply in_or_app; auto. }
      assert (Hold : old E (done ++ [o]) = old E done ++ [o]).
      { unfold old. rewrite filter_app. cbn [filter]. now rewrite EoE. }
      assert (Hnew : new E (done ++ [o]) = new E done).
      { unfold new. rewrite filter_app. cbn [filter]. rewrite EoE. cbn. apply app_nil_r. }
      assert (Hleft : left E done = left E1 done ++ o :: left E2 done).
      { rewrite HE12. unfold left. rewrite filter_app. cbn [filter]. apply mem_false in Hod. rewrite Hod. reflexivity. }
      assert (Hleft' : left E (done ++ [o]) = left E1 done ++ left E2 done).
      { rewrite HE12. unfold left. rewrite filter_app. cbn [filter].
        rewrite mem_snoc, eqb_refl, orb_true_r. cbn [negb].
        change (left E1 (done ++ [o]) ++ left E2 (done ++ [o]) = left E1 done ++ left E2 done).
        now rewrite !left_snoc_notin by assumption. }
      pose proof (left_old_length E done HE Hdn) as Hlen.
      replace (seen E done) with (seen (E1 ++ o :: E2) done) by (now rewrite <- HE12).
      rewrite find_existing_some by (auto; intro H; apply Hn; rewrite HE12; apply in_or_app; auto).
      assert (Hmv : (if negb (zlen (old E done) =? zlen (old E done) + zlen (left E1 done))
                     then list_do u (old E done ++ left E done) (Move (zlen (old E done) + zlen (left E1 done)) (zlen (old E done)))
                     else Some (old E done ++ left E done))
                    = Some (old E (done ++ [o]) ++ left E (done ++ [o]))).
      { rewrite Hold, Hleft, Hleft'.
        destruct (Z.eqb_spec (zlen (old E done)) (zlen (old E done) + zlen (left E1 done))) as [Hz|Hz]; cbn [negb].
        - assert (left E1 done = []) as -> by (apply length_zero_iff_nil; zl).
          cbn. now rewrite <- app_assoc.
        - replace (zlen (old E done) + zlen (left E1 done))
            with (Z.of_nat (length (old E done ++ left E1 done))) by zl.
          unfold zlen at 1. rewrite list_do_move with (x := o).
          + unfold move. f_equal.
            rewrite app_assoc.
            rewrite <- (Nat2Z.id (length (old E done ++ left E1 done))).
            rewrite delete_at_app by reflexivity.
            rewrite <- app_assoc. rewrite <- (Nat2Z.id (length (old E done))).
            rewrite insert_at_app by reflexivity. now rewrite <- app_assoc.
          + rewrite app_assoc. rewrite nth_error_app2 by lia. now rewrite Nat.sub_diag.
          + rewrite !app_length. cbn [length]. lia. }
      rewrite Hmv. cbn [obind].
      assert (Hlen2 : (length E - length (old E done) = S (length E - length (old E (done ++ [o]))))%nat).
      { rewrite Hold, app_length. cbn [length]. rewrite Hleft, app_length in Hlen. cbn [length] in Hlen. lia. }
      rewrite Hlen2. cbn [repeat].
      rewrite zset_mid by (unfold zlen; now rewrite positions_length).
      cbn [obind].
      unfold seen at 1. rewrite map_app. cbn [map].
      rewrite zset_mid by (unfold zlen; rewrite map_length; lia).
      cbn [obind]. unfold inv. f_equal.
      replace (zlen (old E done) + 1) with (zlen (old E (done ++ [o]))) by (rewrite Hold, zlen_app, zlen_cons, zlen_nil; lia).
      rewrite Hnew. f_equal.
      + rewrite positions_app. cbn [positions]. rewrite EoE. rewrite <- app_assoc. reflexivity.
      + rewrite HE12. unfold seen. rewrite map_app. cbn [map].
        rewrite mem_snoc, eqb_refl, orb_true_r. f_equal; [|f_equal].
        * symmetry. apply (seen_snoc_notin E1 done o HnE1).
        * symmetry. apply (seen_snoc_notin E2 done o HnE2).
    - pose proof EoE as HoE. apply mem_false in HoE.
      rewrite find_existing_none by assumption.
      assert (Hold : old E (done ++ [o]) = old E done).
      { unfold old. rewrite filter_app. cbn [filter]. rewrite EoE. apply app_nil_r. }
      assert (Hnew : new E (done ++ [o]) = new E done ++ [o]).
      { unfold new. rewrite filter_app. cbn [filter]. now rewrite EoE. }
      assert (Hlt : (length (new E done) < length objects)%nat).
      { unfold objects. rewrite app_length. cbn [length]. lia. }
      destruct (nth_error_lt_some _ _ Hlt) as [x Hx].
      rewrite (skipn_nth_cons _ _ _ Hx).
      rewrite zset_mid by (unfold zlen; lia).
      cbn [obind]. unfold inv. f_equal. rewrite Hold, Hnew.
      rewrite left_snoc_notin, seen_snoc_notin by assumption.
      f_equal.
      + rewrite app_length. cbn [length]. rewrite Nat.add_1_r, <- app_assoc. reflexivity.
      + rewrite positions_app. cbn [positions]. rewrite EoE, app_nil_r. reflexivity.
  Qed.

  Lemma match_all_inv u E todo done : NoDup E -> NoDup (done ++ todo) -> ~ In nilv E -> ~ In nilv (done ++ todo) ->
    match_all eqb nilv u (length todo) (zlen done) (inv E (done ++ todo) done)
    = Some (inv E (done ++ todo) (done ++ todo)).
  Proof.
    revert done; induction todo as [|o todo IH]; intros done HE Hnd Hn Hno; cbn [length match_all].
    - now rewrite app_nil_r.
    - rewrite match_one_inv; auto.
      2: { intros ->. apply Hno, in_or_app; right; left; reflexivity. }
      cbn [obind]. replace (zlen done + 1) with (zlen (done ++ [o])) by (rewrite zlen_app, zlen_cons, zlen_nil; lia).
      replace (done ++ o :: todo) with ((done ++ [o]) ++ todo) in * by (rewrite <- app_assoc; reflexivity).
      now apply IH.
  Qed.

  Lemma old_all E l : (forall x, In x E -> In x l) -> left E l = [].
  Proof.
    intro H. unfold left. induction E as [|x E IH]; cbn; [reflexivity|].
    assert (mem x l = true) as -> by (apply mem_in, H; left; reflexivity).
    cbn. apply IH. intros y Hy; apply H; right; exact Hy.
  Qed.

  Lemma match_all_start u E objects : NoDup E -> NoDup objects -> ~ In nilv objects -> (forall x, In x E -> In x objects) ->
    match_all eqb nilv u (length objects) 0 (mkR E objects (repeat 0 (length E)) 0 E)
    = Some (mkR (old E objects) (new E objects ++ skipn (length (new E objects)) objects)
                (positions E objects 0) (zlen (old E objects)) (seen E objects)).
  Proof.
    intros HE Hnd Hn Hin.
    pose proof (match_all_inv u E objects [] HE Hnd (fun H => Hn (Hin _ H)) Hn) as H.
    change (zlen []) with 0 in H. cbn [app] in H.
    assert (inv E objects [] = mkR E objects (repeat 0 (length E)) 0 E) as Hi.
    { unfold inv. change (old E []) with (@nil A). change (new E []) with (@nil A). cbn [positions length app skipn]. change (zlen (@nil A)) with 0.
      rewrite Nat.sub_0_r. f_equal.
      - unfold left. clear. induction E as [|x E IH]; cbn; [reflexivity|]. now f_equal.
      - unfold seen. apply map_id. }
    rewrite Hi in H. rewrite H. unfold inv. rewrite old_all by exact Hin. rewrite app_nil_r.
    assert (length E = length (old E objects)) as <-.
    { pose proof (left_old_length E objects HE Hnd) as Hl. rewrite old_all in Hl by exact Hin. cbn in Hl. lia. }
    rewrite Nat.sub_diag. cbn [repeat]. now rewrite app_nil_r.
  Qed.

  (** the bulk addition appends exactly the new objects *)
  Lemma add_new u E objects : u = true -> NoDup E -> NoDup objects -> (forall x, In x E -> In x objects) ->
    list_do u (old E objects) (AddAll (Ext (new E objects ++ skipn (length (new E objects)) objects)))
    = Some (old E objects ++ new E objects).
  Proof.
    intros -> HE Hnd Hin.
    set (c := new E objects ++ skipn (length (new E objects)) objects).
    pose proof (old_new_length E objects) as Hon.
    assert (Hsk : NoDup (skipn (length (new E objects)) objects)).
    { rewrite <- (firstn_skipn (length (new E objects)) objects) in Hnd. apply NoDup_app_iff in Hnd. tauto. }
    assert (Hok : bulk_ok eqb (old E objects) c).
    { left. transitivity (length (skipn (length (new E objects)) objects)).
      - rewrite skipn_length. lia.
      - apply NoDup_incl_length; [exact Hsk|]. intros x Hx.
        apply (fresh_in eqb eqb_ok). split; [|tauto]. unfold c. apply in_or_app. right; exact Hx. }
    rewrite list_do_spec by (intros; exact Hok). cbn [spec_step elems].
    assert (Hf : fresh (old E objects) c = new E objects).
    { unfold c. assert (Hdis : forall x, In x (new E objects) -> ~ In x (old E objects)).
      { intros x Hx Hx'. unfold new, old in *. rewrite filter_In in Hx, Hx'. destruct Hx as [_ Hx], Hx' as [_ Hx'].
        rewrite Hx' in Hx. discriminate. }
      assert (Hndn : NoDup (new E objects)) by now apply NoDup_filter.
      assert (Hrest : forall x, In x (skipn (length (new E objects)) objects) -> In x (new E objects) \/ In x (old E objects)).
      { intros x Hx. assert (In x objects).
        { rewrite <- (firstn_skipn (length (new E objects)) objects). apply in_or_app; auto. }
        unfold new, old. rewrite !filter_In. destruct (mem x E); auto. }
      clear Hon Hok. revert Hdis Hndn Hrest. generalize (skipn (length (new E objects)) objects) as r.
      clear c Hsk.
      generalize (new E objects) as n, (old E objects) as s. clear -eqb_ok.
      induction n as [|x n IH]; intros s r Hd Hn Hr; cbn [app].
      - clear Hd Hn. induction r as [|y r IHr]; cbn; [reflexivity|].
        destruct (Hr y (or_introl eq_refl)) as [[]|Hy]. apply mem_in in Hy. rewrite Hy. apply IHr.
        intros z Hz. apply Hr. right; exact Hz.
      - cbn [ListSpec.fresh]. inversion Hn; subst.
        assert (mem x s = false) as -> by (apply mem_false, Hd; left; reflexivity).
        f_equal. apply IH; auto.
        + intros y Hy [->|Hs]; [contradiction|]. apply (Hd y); [right; exact Hy|exact Hs].
        + intros y Hy. destruct (Hr y Hy) as [[->|H]|H]; cbn; auto. }
    rewrite Hf. destruct (new E objects); cbn; [now rewrite app_nil_r|reflexivity].
  Qed.

  Lemma list_do_empty u objects : (u = true -> NoDup objects) ->
    list_do u [] (AddAll (Ext objects)) = Some objects.
  Proof.
    intro H. rewrite list_do_spec by (intros; left; cbn; lia). cbn [spec_step elems].
    destruct u; [|reflexivity]. rewrite fresh_NoDup_id by (auto; intros ? _ []).
    destruct objects; reflexivity.
  Qed.

  (** moving elements of the prefix only *)
  Lemma move_prefix (l : list A) y i j x : nth_error l i = Some x -> (j < length l)%nat ->
    exists l', move i j x (l ++ [y]) = l' ++ [y] /\ length l' = length l.
  Proof.
    intros Hx Hj. assert (Hi : (i < length l)%nat) by (apply nth_error_Some; congruence).
    exists (move i j x l). unfold move, insert_at, delete_at, delete_range.
    rewrite (firstn_app i), (skipn_app (i + 1)).
    replace (i - length l)%nat with 0%nat by lia. replace (i + 1 - length l)%nat with 0%nat by lia.
    cbn [firstn skipn]. rewrite app_nil_r.
    rewrite app_assoc.
    assert (Hld : length (firstn i l ++ skipn (i + 1) l) = (length l - 1)%nat).
    { rewrite app_length, firstn_length, skipn_length. lia. }
    rewrite (firstn_app j), (skipn_app j).
    replace (j - length (firstn i l ++ skipn (i + 1) l))%nat with 0%nat by lia.
    cbn [firstn skipn]. rewrite app_nil_r. split.
    - rewrite <- app_assoc. reflexivity.
    - rewrite app_length. cbn [length].
      rewrite firstn_length, skipn_length, Hld. lia.
  Qed.

  Lemma positions_lt E l i p : In p (positions E l i) -> i <= p < i + zlen l.
  Proof.
    revert i; induction l as [|x l IH]; intro i; cbn [positions]; [intros []|]. rewrite zlen_cons.
    pose proof (zlen_nonneg l). destruct (mem x E).
    - intros [<-|H']; [lia|]. apply IH in H'. lia.
    - intro H'. apply IH in H'. lia.
  Qed.

  Lemma positions_nth E l i k p : nth_error (positions E l i) k = Some p ->
    i + Z.of_nat k <= p /\ p < i + zlen l /\ exists x, nth_error l (Z.to_nat (p - i)) = Some x /\ nth_error (old E l) k = Some x.
  Proof.
    revert i k; induction l as [|x l IH]; intros i k; cbn [positions]; [destruct k; discriminate|].
    rewrite zlen_cons. unfold old. cbn [filter]. fold (old E l). pose proof (zlen_nonneg l).
    destruct (mem x E) eqn:Em.
    - destruct k as [|k]; cbn [nth_error].
      + intros [= <-]. split; [lia|split; [lia|]]. exists x. rewrite Z.sub_diag. auto.
      + intro Hk. destruct (IH (i + 1) k Hk) as (H1 & H2 & y & H3 & H4).
        split; [lia|split; [lia|]]. exists y. split; [|exact H4].
        replace (Z.to_nat (p - i)) with (S (Z.to_nat (p - (i + 1)))) by lia. exact H3.
    - intro Hk. destruct (IH (i + 1) k Hk) as (H1 & H2 & y & H3 & H4).
      split; [lia|split; [lia|]]. exists y. split; [|exact H4].
      replace (Z.to_nat (p - i)) with (S (Z.to_nat (p - (i + 1)))) by lia. exact H3.
  Qed.

  (** upper bound: the k-th existing object is followed by the remaining ones *)
  Lemma positions_ub E l i k p : nth_error (positions E l i) k = Some p ->
    p + Z.of_nat (length (positions E l i) - k) <= i + zlen l.
  Proof.
    revert i k; induction l as [|x l IH]; intros i k; cbn [positions]; [destruct k; discriminate|].
    rewrite zlen_cons. assert (Hle : Z.of_nat (length (positions E l (i + 1))) <= zlen l).
    { rewrite positions_length. pose proof (old_new_length E l). zl. }
    destruct (mem x E).
    - destruct k as [|k]; cbn [nth_error length].
      + intros [= <-]. lia.
      + intro Hk. apply IH in Hk. lia.
    - intro Hk. apply IH in Hk. lia.
  Qed.

  (** all but the last placement leave the last element where it is *)
  Lemma place_all_prefix u inds n i size l y :
    (forall k, (i <= k < i + n)%nat -> exists p, nth_error inds k = Some p /\ 0 <= p < zlen l /\ 0 <= size + Z.of_nat k < zlen l) ->
    exists l', length l' = length l /\
      forall m, place_all eqb nilv u (n + m) (Z.of_nat i) size inds (l ++ [y])
                = place_all eqb nilv u m (Z.of_nat (i + n)) size inds (l' ++ [y]).
  Proof.
    revert i l; induction n as [|n IH]; intros i l H.
    - exists l. split; [reflexivity|]. intro m. now rewrite Nat.add_0_r.
    - destruct (H i ltac:(lia)) as (p & Hp & Hpl & Hsl).
      assert (Hstep : exists l1, length l1 = length l /\
        (if negb (p =? size + Z.of_nat i)
         then list_do u (l ++ [y]) (Move (size + Z.of_nat i) p) else Some (l ++ [y])) = Some (l1 ++ [y])).
      { destruct (Z.eqb_spec p (size + Z.of_nat i)) as [|Hne]; cbn [negb]; [eauto|].
        destruct (nth_error_lt_some l (Z.to_nat (size + Z.of_nat i)) ltac:(zl)) as [x Hx].
        destruct (move_prefix l y _ (Z.to_nat p) x Hx ltac:(zl)) as (l1 & Hm & Hl1).
        exists l1. split; [exact Hl1|].
        replace (size + Z.of_nat i) with (Z.of_nat (Z.to_nat (size + Z.of_nat i))) by lia.
        replace p with (Z.of_nat (Z.to_nat p)) at 1 by lia.
        rewrite list_do_move with (x := x).
        - now rewrite Hm.
        - rewrite nth_error_app1 by (apply nth_error_Some; congruence). exact Hx.
        - rewrite app_length; cbn; zl. }
      destruct Hstep as (l1 & Hl1 & Hstep).
      destruct (IH (S i) l1) as (l' & Hl' & Hpl').
      { intros k Hk. destruct (H k ltac:(lia)) as (q & Hq1 & Hq2 & Hq3). exists q.
        split; [exact Hq1|]. unfold zlen in *. rewrite Hl1. auto. }
      exists l'. split; [congruence|]. intro m. cbn [Nat.add place_all].
      assert (zget inds (Z.of_nat i) = Some p) as ->.
      { unfold zget. replace (Z.of_nat i <? 0) with false by lia. now rewrite Nat2Z.id. }
      cbn [obind]. rewrite Hstep. cbn [obind].
      replace (Z.of_nat i + 1) with (Z.of_nat (S i)) by lia. rewrite Hpl'. f_equal. lia.
  Qed.

  Lemma place_all_id u inds n i l : (forall k, (i <= k < i + n)%nat -> nth_error inds k = Some (Z.of_nat k)) ->
    place_all eqb nilv u n (Z.of_nat i) 0 inds l = Some l.
  Proof.
    revert i; induction n as [|n IH]; intros i H; cbn [place_all]; [reflexivity|].
    unfold zget. replace (Z.of_nat i <? 0) with false by lia. rewrite Nat2Z.id, (H i) by lia.
    cbn [obind]. replace (Z.of_nat i =? 0 + Z.of_nat i) with true by lia. cbn [negb obind].
    replace (Z.of_nat i + 1) with (Z.of_nat (S i)) by lia. apply IH. intros k Hk. apply H. lia.
  Qed.

  Lemma positions_all E l i : (forall x, In x l -> In x E) ->
    positions E l i = map (fun k => i + Z.of_nat k) (seq 0 (length l)) /\ old E l = l.
  Proof.
    revert i; induction l as [|x l IH]; intros i H; cbn [positions old filter length seq map]; [auto|].
    assert (mem x E = true) as -> by (apply mem_in, H; left; reflexivity).
    destruct (IH (i + 1)) as [H1 H2]; [intros; apply H; right; assumption|]. split.
    - rewrite H1. f_equal; [lia|]. rewrite <- seq_shift, map_map. apply map_ext. intro; lia.
    - unfold old in H2. now rewrite H2.
  Qed.

  Theorem reconcile_none u objects : (u = true -> NoDup objects) -> reconcile eqb nilv u [] objects = Some objects.
  Proof. intro H. unfold reconcile. cbn [zlen length]. change (zlen [] =? 0) with true. cbn. now apply list_do_empty. Qed.

  Theorem reconcile_all E objects : NoDup E -> NoDup objects -> ~ In nilv objects ->
    (forall x, In x E <-> In x objects) -> reconcile eqb nilv true E objects = Some objects.
  Proof.
    intros HE Hnd Hn Hin. destruct E as [|e E'].
    { destruct objects as [|o objects]; [reflexivity|]. exfalso. apply (Hin o). left; reflexivity. }
    set (E := e :: E') in *. unfold reconcile.
    replace (zlen E =? 0) with false by (unfold E; rewrite zlen_cons; pose proof (zlen_nonneg E'); lia).
    rewrite match_all_start by (auto; intros; now apply Hin). cbn [obind r_list r_objects r_indices].
    rewrite add_new by (auto; intros; now apply Hin). cbn [obind].
    destruct (positions_all E objects 0) as [Hp Ho]; [intros; now apply Hin|].
    assert (new E objects = []) as Hnew.
    { apply length_zero_iff_nil. pose proof (old_new_length E objects). rewrite Ho in H. lia. }
    rewrite Hnew, Ho, app_nil_r, Hp.
    assert (Hl : length E = length objects).
    { apply Nat.le_antisymm; apply NoDup_incl_length; auto; intros x Hx; now apply Hin. }
    replace (zlen objects - zlen E) with 0 by zl.
    change 0 with (Z.of_nat 0) at 1. apply place_all_id.
    intros k Hk. rewrite nth_error_map.
    assert (nth_error (seq 0 (length objects)) k = Some k) as ->.
    { rewrite nth_error_nth' with (d := 0%nat) by (rewrite seq_length; lia). rewrite seq_nth by lia. reflexivity. }
    reflexivity.
  Qed.

  Theorem reconcile_mixed E objects : NoDup E -> NoDup objects -> ~ In nilv objects ->
    (forall x, In x E -> In x objects) -> E <> [] -> (exists x, In x objects /\ ~ In x E) ->
    exists l, reconcile eqb nilv true E objects = Some l /\ l <> objects.
  Proof.
    intros HE Hnd Hn Hin HnE (x0 & Hx0 & Hx0').
    unfold reconcile.
    replace (zlen E =? 0) with false by (destruct E; [congruence|]; rewrite zlen_cons; pose proof (zlen_nonneg E); lia).
    rewrite match_all_start by auto. cbn [obind r_list r_objects r_indices].
    rewrite add_new by auto. cbn [obind].
    pose proof (old_new_length E objects) as Hon.
    assert (HoE : length (old E objects) = length E).
    { pose proof (left_old_length E objects HE Hnd) as Hl. rewrite old_all in Hl by exact Hin. cbn in Hl. lia. }
    destruct (exists_last (l := new E objects)) as (n' & y & Hny).
    { intro H0. assert (In x0 (new E objects)).
      { unfold new. apply filter_In. split; [exact Hx0|]. apply mem_false in Hx0'. now rewrite Hx0'. }
      rewrite H0 in H. destruct H. }
    assert (Hy : ~ In y E).
    { assert (In y (new E objects)) by (rewrite Hny; apply in_or_app; right; left; reflexivity).
      unfold new in H. apply filter_In in H. destruct H as [_ H]. apply mem_false. now destruct (mem y E). }
    rewrite Hny, app_length in Hon. cbn [length] in Hon.
    destruct (length E) as [|e] eqn:HlE; [destruct E; cbn in HlE; [congruence|discriminate]|].
    rewrite Hny, app_assoc.
    assert (Hind : forall k, (k < S e)%nat -> exists p, nth_error (positions E objects 0) k = Some p).
    { intros k Hk. apply nth_error_lt_some. rewrite positions_length. lia. }
    assert (Hlo : zlen objects = Z.of_nat (S e) + zlen n' + 1) by zl.
    replace (zlen objects - zlen E) with (zlen n' + 1) by zl.
    destruct (place_all_prefix true (positions E objects 0) e 0 (zlen n' + 1) (old E objects ++ n') y)
      as (l1 & Hl1 & Hpl).
    { intros k Hk. destruct (Hind k ltac:(lia)) as [p Hp]. exists p. split; [exact Hp|].
      pose proof (positions_ub _ _ _ _ _ Hp) as Hub. rewrite positions_length in Hub.
      pose proof (positions_nth _ _ _ _ _ Hp) as (Hlb & _).
      rewrite zlen_app. replace (zlen (old E objects)) with (Z.of_nat (S e)) by zl. pose proof (zlen_nonneg n'). lia. }
    replace (S e) with (e + 1)%nat by lia. change 0 with (Z.of_nat 0) at 1.
    rewrite Hpl. cbn [Nat.add place_all].
    destruct (Hind e ltac:(lia)) as [p Hp].
    pose proof (positions_nth _ _ _ _ _ Hp) as (Hlb & Hub & z & Hz1 & Hz2).
    assert (zget (positions E objects 0) (Z.of_nat e) = Some p) as ->.
    { unfold zget. replace (Z.of_nat e <? 0) with false by lia. now rewrite Nat2Z.id. }
    cbn [obind].
    assert (HzE : In z E).
    { apply nth_error_In in Hz2. unfold old in Hz2. apply filter_In in Hz2. apply mem_in. tauto. }
    assert (Hlast : (if negb (p =? zlen n' + 1 + Z.of_nat e)
        then list_do true (l1 ++ [y]) (Move (zlen n' + 1 + Z.of_nat e) p) else Some (l1 ++ [y]))
        = Some (move (length l1) (Z.to_nat p) y (l1 ++ [y]))).
    { assert (Hll : zlen n' + 1 + Z.of_nat e = Z.of_nat (length l1)).
      { rewrite Hl1, app_length. zl. }
      rewrite Hll. destruct (Z.eqb_spec p (Z.of_nat (length l1))) as [->|Hne]; cbn [negb].
      - rewrite Nat2Z.id. unfold move.
        rewrite <- (Nat2Z.id (length l1)) at 2. rewrite delete_at_app by reflexivity. rewrite app_nil_r.
        unfold insert_at. rewrite firstn_all, skipn_all. reflexivity.
      - replace p with (Z.of_nat (Z.to_nat p)) at 1 by lia.
        apply list_do_move.
        + rewrite nth_error_app2 by lia. now rewrite Nat.sub_diag.
        + rewrite app_length. cbn [length]. rewrite Hl1, app_length. zl. }
    rewrite Hlast. cbn [obind]. eexists. split; [reflexivity|].
    intro Heq.
    assert (Hyz : nth_error (move (length l1) (Z.to_nat p) y (l1 ++ [y])) (Z.to_nat p) = Some y).
    { unfold move. rewrite <- (Nat2Z.id (length l1)) at 1. rewrite delete_at_app by reflexivity. rewrite app_nil_r.
      assert ((Z.to_nat p <= length l1)%nat) by (rewrite Hl1, app_length; zl).
      unfold insert_at. rewrite nth_error_app2 by (rewrite firstn_length; lia).
      rewrite firstn_length. replace (Z.to_nat p - _)%nat with 0%nat by lia. reflexivity. }
    rewrite Heq in Hyz. rewrite Z.sub_0_r in Hz1. congruence.
  Qed.

  Lemma move_perm i j x (l : list A) : nth_error l i = Some x -> Permutation l (move i j x l).
  Proof.
    intro H. destruct (nth_error_split _ _ H) as (l1 & l2 & -> & Hl).
    unfold move. replace i with (Z.to_nat (Z.of_nat i)) by lia. rewrite (delete_at_app l1 x l2) by zl.
    unfold insert_at. transitivity (x :: l1 ++ l2); [symmetry; apply Permutation_middle|].
    rewrite <- (firstn_skipn j (l1 ++ l2)) at 1. apply Permutation_middle.
  Qed.

  Lemma list_do_move_perm u data i j d' : list_do u data (Move i j) = Some d' -> Permutation data d'.
  Proof.
    rewrite list_do_spec by (intros; exact I). cbn [spec_step].
    destruct (_ && _); [|discriminate]. destruct (nth_error data (Z.to_nat i)) as [x|] eqn:Ex; [|discriminate].
    cbn. intros [= <-]. now apply move_perm.
  Qed.

  Lemma place_all_perm u n : forall i size inds l l', place_all eqb nilv u n i size inds l = Some l' -> Permutation l l'.
  Proof.
    induction n as [|n IH]; intros i size inds l l'; cbn [place_all]; [intros [= <-]; reflexivity|].
    destruct (zget inds i) as [p|]; cbn [obind]; [|discriminate].
    destruct (negb (p =? size + i)).
    - destruct (list_do u l (Move (size + i) p)) as [l1|] eqn:E1; cbn [obind]; [|discriminate].
      intro H. apply list_do_move_perm in E1. transitivity l1; [exact E1|]. now apply (IH _ _ _ _ _ H).
    - cbn [obind]. apply IH.
  Qed.

  Lemma old_new_perm E (l : list A) : Permutation l (old E l ++ new E l).
  Proof.
    induction l as [|x l IH]; [constructor|]. unfold old, new. cbn [filter]. fold (old E l) (new E l).
    destruct (mem x E); cbn [negb app]; [now constructor|].
    transitivity (x :: old E l ++ new E l); [now constructor|]. apply Permutation_middle.
  Qed.

  (** nothing is lost or duplicated *)
  Theorem reconcile_perm E objects l : NoDup E -> NoDup objects -> ~ In nilv objects ->
    (forall x, In x E -> In x objects) -> reconcile eqb nilv true E objects = Some l -> Permutation objects l.
  Proof.
    intros HE Hnd Hn Hin H. destruct E as [|e E'].
    - rewrite reconcile_none in H by auto. injection H as <-. reflexivity.
    - set (E := e :: E') in *. unfold reconcile in H.
      replace (zlen E =? 0) with false in H by (unfold E; rewrite zlen_cons; pose proof (zlen_nonneg E'); lia).
      rewrite match_all_start in H by auto. cbn [obind r_list r_objects r_indices] in H.
      rewrite add_new in H by auto. cbn [obind] in H. apply place_all_perm in H.
      transitivity (old E objects ++ new E objects); [apply old_new_perm|exact H].
  Qed.

  Lemma some_or_all E (objects : list A) : (forall x, In x objects -> In x E) \/ exists x, In x objects /\ ~ In x E.
  Proof.
    induction objects as [|x l IH]; [left; intros ? []|]. destruct (mem x E) eqn:Em.
    - apply (member_in eqb eqb_ok) in Em || (apply mem_in in Em). destruct IH as [H|(y & Hy & Hn)].
      + left. intros y [<-|Hy]; auto.
      + right. exists y. split; [right; exact Hy|exact Hn].
    - right. exists x. split; [left; reflexivity|]. now apply mem_false.
  Qed.

  Theorem reconcile_total E objects : NoDup E -> NoDup objects -> ~ In nilv objects ->
    (forall x, In x E -> In x objects) -> exists l, reconcile eqb nilv true E objects = Some l /\ Permutation objects l.
  Proof.
    intros HE Ho Hn Hin.
    assert (H : exists l, reconcile eqb nilv true E objects = Some l).
    { destruct E as [|e E']; [exists objects; apply reconcile_none; auto|].
      destruct (some_or_all (e :: E') objects) as [H|H].
      - exists objects. apply reconcile_all; auto. intro x; split; auto.
      - destruct (reconcile_mixed (e :: E') objects) as (l & Hl & _); auto; [discriminate|eauto]. }
    destruct H as [l Hl]. exists l. split; [exact Hl|]. now apply (reconcile_perm E).
  Qed.

  Theorem reconcile_iff E objects : NoDup E -> NoDup objects -> ~ In nilv objects ->
    (forall x, In x E -> In x objects) ->
    (reconcile eqb nilv true E objects = Some objects <-> E = [] \/ (forall x, In x objects -> In x E)).
  Proof.
    intros HE Ho Hn Hin. split.
    - intro H. destruct E as [|e E']; [auto|]. right. destruct (some_or_all (e :: E') objects) as [H1|H1]; [exact H1|].
      destruct (reconcile_mixed (e :: E') objects) as (l & Hl & Hne); auto; [discriminate|congruence].
    - intros [->|H]; [apply reconcile_none; auto|]. apply reconcile_all; auto. intro x; split; auto.
  Qed.
End P.
