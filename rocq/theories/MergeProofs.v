From Verif Require Import Base ListModel ListSpec ListProofs NotifyModel NotifySpec NotifyProofs.

Section MergeProofs.
  Context {A : Type} (nilv : A).
  Implicit Types s : list A.

  Lemma rap_app s1 s2 ps i :
    remove_at_positions i (s1 ++ s2) ps
    = remove_at_positions i s1 ps ++ remove_at_positions (i + zlen s1) s2 ps.
  Proof.
    revert i; induction s1 as [|x s1 IH]; intro i; cbn [app remove_at_positions].
    - f_equal. zl.
    - rewrite IH. replace (i + 1 + zlen s1) with (i + zlen (x :: s1)) by zl.
      destruct (existsb (Z.eqb i) ps); reflexivity.
  Qed.
  Lemma rap_below ps s i : Forall (fun p => p < i) ps -> remove_at_positions i s ps = s.
  Proof.
    intro H. revert i H; induction s as [|x s IH]; intros i H; cbn [remove_at_positions]; [reflexivity|].
    replace (existsb (Z.eqb i) ps) with false.
    - f_equal. apply IH. eapply Forall_impl; [|exact H]. cbn; intros; lia.
    - symmetry. clear IH. induction H as [|p ps Hp _ IH]; cbn; [reflexivity|].
      rewrite IH. destruct (Z.eqb_spec i p); [lia|reflexivity].
  Qed.
  Lemma rap_snoc_above s ps q i : i + zlen s <= q ->
    remove_at_positions i s (ps ++ [q]) = remove_at_positions i s ps.
  Proof.
    revert i; induction s as [|x s IH]; intros i H; cbn [remove_at_positions]; [reflexivity|].
    rewrite zlen_cons in H. pose proof (zlen_nonneg s).
    rewrite existsb_app. cbn [existsb]. destruct (Z.eqb_spec i q); [lia|].
    rewrite !orb_false_r. rewrite IH by lia. reflexivity.
  Qed.
  Lemma rap_length s : forall ps i, increasing i ps (i + zlen s) ->
    zlen (remove_at_positions i s ps) = zlen s - zlen ps.
  Proof.
    induction s as [|x s IH]; intros ps i H; cbn [remove_at_positions].
    - destruct ps as [|p ps]; [reflexivity|]. cbn in H. unfold zlen in H; cbn in H. lia.
    - destruct ps as [|p ps].
      + cbn [existsb]. rewrite !zlen_cons, IH by exact I. lia.
      + destruct H as [[H1 H2] H3].
        destruct (Z.eqb_spec i p) as [->|Hne].
        * cbn [existsb]. rewrite Z.eqb_refl. cbn [orb]. rewrite remove_at_positions_below by lia.
          rewrite IH; [zl|]. replace (p + 1 + zlen s) with (p + zlen (x :: s)) by zl. exact H3.
        * rewrite (increasing_not_in (i + 1) _ (i + zlen (x :: s))) by (try (split; [lia|exact H3]); lia).
          rewrite zlen_cons. rewrite IH; [zl|].
          replace (i + 1 + zlen s) with (i + zlen (x :: s)) by zl. split; [lia|exact H3].
  Qed.

  Lemma mergePositions_all ps np acc lo hi :
    increasing lo ps hi -> Forall (fun p => p < np + zlen ps) ps ->
    mergePositions ps np acc = (acc ++ ps, np + zlen ps).
  Proof.
    revert np acc lo; induction ps as [|p ps IH]; intros np acc lo Hinc HF; cbn [mergePositions].
    - rewrite app_nil_r. f_equal. zl.
    - destruct Hinc as [Hp Hinc].
      assert (Hlast : forall ps lo p, increasing lo ps hi -> p < lo -> Forall (fun q => p < q) ps).
      { clear. intro ps; induction ps as [|q ps IH]; intros lo p H Hp; constructor.
        - destruct H; lia.
        - destruct H. eapply IH; [eassumption|lia]. }
      assert (Hple : p <= np).
      { (* p <= last - (len-1) < np + 1 *)
        assert (Hgap : forall ps lo b, increasing lo ps hi -> Forall (fun q => q < b) ps ->
                        ps <> [] -> lo + zlen ps <= b).
        { clear. intro ps; induction ps as [|q ps IH]; intros lo b H HF Hne; [congruence|].
          destruct H as [Hq H]. inversion HF as [|? ? Hqb HF']; subst.
          destruct ps as [|q' ps].
          - zl.
          - specialize (IH (q + 1) b H HF' ltac:(discriminate)). rewrite zlen_cons in *. zl. }
        destruct ps as [|q ps].
        - inversion HF; subst. zl.
        - inversion HF as [|? ? _ HF']; subst.
          specialize (Hgap (q :: ps) (p + 1) _ Hinc HF' ltac:(discriminate)). zl. }
      destruct (Z.leb_spec p np); [|lia].
      erewrite IH; [| exact Hinc |].
      + rewrite <- app_assoc. cbn [app]. f_equal. zl.
      + inversion HF as [|? ? _ HF']; subst. eapply Forall_impl; [|exact HF'].
        cbn. intros. zl.
  Qed.

  Lemma increasing_snoc ps lo n n' q : increasing lo ps n -> Forall (fun p => p < q) ps ->
    lo <= q < n' -> n <= n' -> increasing lo (ps ++ [q]) n'.
  Proof.
    revert lo; induction ps as [|p ps IH]; intros lo H HF Hq Hn; cbn; [lia|].
    destruct H as [Hp H]. inversion HF; subst. split; [lia|]. apply IH; auto. lia.
  Qed.

  Lemma merge_list_correct n o m s s1 s2 :
    observes n s s1 -> observes o s1 s2 -> merge_safe n o ->
    merge nilv n o = Some (Some m) -> observes m s s2.
  Proof.
    intros Hn Ho Hsafe Hm. inversion Hn; subst; inversion Ho; subst; cbn in Hm; try discriminate.
    - (* REMOVE, REMOVE *)
      destruct (Z.leb_spec i i0) as [Hle|Hgt]; injection Hm as <-.
      + assert (Hb : 0 <= i < zlen s).
        { split; [lia|]. assert (Z.to_nat i < length s)%nat by (apply nth_error_Some; congruence). zl. }
        destruct (split_elem s i) as (l1 & z & l2 & -> & Hl); [lia|].
        rewrite nth_error_mid in H0 by lia. injection H0 as ->.
        rewrite delete_at_app in * by lia.
        assert (Hb0 : i0 < zlen (l1 ++ l2)).
        { assert (Z.to_nat i0 < length (l1 ++ l2))%nat by (apply nth_error_Some; congruence). zl. }
        destruct (split_elem l2 (i0 - i)) as (l3 & z & l4 & -> & Hl3); [zl|].
        rewrite app_assoc in H2. rewrite nth_error_mid in H2 by zl. injection H2 as ->.
        replace (delete_at (Z.to_nat i0) (l1 ++ l3 ++ x0 :: l4))
          with (remove_at_positions 0 (l1 ++ x :: l3 ++ x0 :: l4) [i; i0 + 1]).
        * apply ObsRemoveMany; [cbn [increasing]; zl|reflexivity|].
          constructor; [apply nth_error_mid; lia|]. constructor; [|constructor].
          replace (l1 ++ x :: l3 ++ x0 :: l4) with ((l1 ++ x :: l3) ++ x0 :: l4)
            by (rewrite <- app_assoc; reflexivity).
          apply nth_error_mid. zl.
        * rewrite app_assoc, delete_at_app by zl.
          rewrite rap_app. cbn [remove_at_positions existsb].
          rewrite Hl. cbn [Z.add]. rewrite Z.eqb_refl. cbn [orb].
          rewrite (remove_at_positions_below (i + 1)) by lia.
          rewrite (rap_app l3). cbn [remove_at_positions existsb].
          destruct (Z.eqb_spec (i + 1 + zlen l3) (i0 + 1)); [cbn [orb]|lia].
          rewrite (rap_below [i0 + 1] l4) by (constructor; [lia|constructor]).
          rewrite <- app_assoc.
          assert (E1 : remove_at_positions 0 l1 [i; i0 + 1] = l1).
          { change [i; i0+1] with ([i] ++ [i0 + 1]). rewrite rap_snoc_above by lia.
            change [i] with ([] ++ [i]). rewrite rap_snoc_above by lia.
            now rewrite rap_below. }
          assert (E2 : remove_at_positions (i + 1) l3 [i0 + 1] = l3).
          { change [i0+1] with ([] ++ [i0 + 1]). rewrite rap_snoc_above by lia. now rewrite rap_below. }
          rewrite E1, E2. reflexivity.
      + assert (Hb : 0 <= i < zlen s).
        { split; [lia|]. assert (Z.to_nat i < length s)%nat by (apply nth_error_Some; congruence). zl. }
        destruct (split_elem s i) as (l1 & z & l2 & -> & Hl); [lia|].
        rewrite nth_error_mid in H0 by lia. injection H0 as ->.
        rewrite delete_at_app in * by lia.
        destruct (split_elem l1 i0) as (l3 & z & l4 & -> & Hl3); [zl|].
        rewrite <- app_assoc in H2. cbn [app] in H2. rewrite nth_error_mid in H2 by zl. injection H2 as ->.
        replace (delete_at (Z.to_nat i0) ((l3 ++ x0 :: l4) ++ l2))
          with (remove_at_positions 0 ((l3 ++ x0 :: l4) ++ x :: l2) [i0; i]).
        * apply ObsRemoveMany; [cbn [increasing]; zl|reflexivity|].
          constructor; [rewrite <- app_assoc; apply nth_error_mid; lia|]. constructor; [|constructor].
          apply nth_error_mid. zl.
        * rewrite <- !app_assoc. cbn [app]. rewrite delete_at_app by lia.
          rewrite rap_app. cbn [app remove_at_positions existsb].
          rewrite Hl3. cbn [Z.add]. rewrite Z.eqb_refl. cbn [orb].
          rewrite (remove_at_positions_below (i0 + 1)) by lia.
          rewrite (rap_app l4). cbn [remove_at_positions existsb].
          destruct (Z.eqb_spec (i0 + 1 + zlen l4) i); [cbn [orb]|zl].
          rewrite (rap_below [i] l2) by (constructor; [lia|constructor]).
          assert (E1 : remove_at_positions 0 l3 [i0; i] = l3).
          { change [i0; i] with ([i0] ++ [i]). rewrite rap_snoc_above by zl.
            change [i0] with ([] ++ [i0]). rewrite rap_snoc_above by lia.
            now rewrite rap_below. }
          assert (E2 : remove_at_positions (i0 + 1) l4 [i] = l4).
          { change [i] with ([] ++ [i]). rewrite rap_snoc_above by zl. now rewrite rap_below. }
          rewrite E1, E2. reflexivity.
    - (* REMOVE_MANY, REMOVE *)
      cbn in Hsafe. destruct Hsafe as (ps' & [= <-] & HF).
      rewrite (mergePositions_all ps i0 [] 0 (zlen s)) in Hm by assumption.
      cbn [app] in Hm.
      assert (Hlen : zlen xs = zlen ps) by zl.
      assert (Hpsle : zlen (remove_at_positions 0 s ps) = zlen s - zlen ps) by now apply rap_length.
      assert (Hb0 : i0 < zlen (remove_at_positions 0 s ps)).
      { assert (Z.to_nat i0 < length (remove_at_positions 0 s ps))%nat by (apply nth_error_Some; congruence). zl. }
      replace (zslice (xs ++ [nilv]) (zlen ps) (zlen xs + 1)) with (Some [nilv]) in Hm
        by (symmetry; apply zslice_post; zl).
      cbn [obind] in Hm.
      rewrite <- (app_nil_r (xs ++ [nilv])) in Hm.
      rewrite zcopy_trunc in Hm by zl. cbn [length firstn obind] in Hm.
      rewrite app_nil_r in Hm. rewrite zset_app in Hm by zl. cbn [obind] in Hm.
      replace (length ps - 1 - length ps)%nat with 0%nat in Hm by lia. cbn [firstn] in Hm.
      injection Hm as <-.
      set (q := i0 + zlen ps) in *.
      destruct (split_elem s q) as (l1 & z & l2 & -> & Hl); [unfold q; zl|].
      assert (Hl1 : zlen (remove_at_positions 0 l1 ps) = i0).
      { rewrite rap_length; [unfold q in *; lia|]. rewrite Hl. cbn [Z.add].
        clear -H HF. clearbody q. revert H HF. generalize 0 as lo, (zlen (l1 ++ z :: l2)) as hi.
        induction ps as [|p ps IH]; intros lo hi H HF; cbn; [exact I|].
        destruct H as [Hp H]. inversion HF; subst. split; [lia|]. eapply IH; eauto. }
      assert (Hsplit : remove_at_positions 0 (l1 ++ z :: l2) ps = remove_at_positions 0 l1 ps ++ z :: l2).
      { rewrite rap_app. f_equal. apply rap_below. eapply Forall_impl; [|exact HF]. cbn; intros; lia. }
      rewrite Hsplit in *.
      match goal with Hx : nth_error (_ ++ z :: l2) (Z.to_nat i0) = Some x |- _ => rewrite nth_error_mid in Hx by lia; injection Hx as -> end.
      rewrite delete_at_app by lia.
      replace (remove_at_positions 0 l1 ps ++ l2)
        with (remove_at_positions 0 (l1 ++ x :: l2) (ps ++ [q])).
      + apply ObsRemoveMany.
        * eapply increasing_snoc; [exact H|exact HF| |lia]. unfold q in *. zl.
        * rewrite !app_length. cbn. lia.
        * apply Forall2_app; [assumption|]. constructor; [|constructor]. apply nth_error_mid. lia.
      + rewrite rap_app. rewrite rap_snoc_above by lia. f_equal.
        cbn [remove_at_positions]. rewrite existsb_app. cbn [existsb].
        destruct (Z.eqb_spec (0 + zlen l1) q); [|lia]. rewrite orb_true_r. rewrite orb_true_r || idtac.
        apply rap_below. apply Forall_app. split; [|constructor; [lia|constructor]].
        eapply Forall_impl; [|exact HF]. cbn; intros; lia.
    - (* SET, SET *)
      injection Hm as <-. cbn in Hsafe. subst i0.
      assert (Hb : 0 <= i < zlen s).
      { split; [lia|]. assert (Z.to_nat i < length s)%nat by (apply nth_error_Some; congruence). zl. }
      destruct (split_elem s i) as (l1 & z & l2 & -> & Hl); [lia|].
      rewrite nth_error_mid in H0 by lia. injection H0 as ->.
      rewrite !replace_at_app by lia.
      replace (l1 ++ y0 :: l2) with (replace_at (Z.to_nat i) y0 (l1 ++ x :: l2)) by now apply replace_at_app.
      constructor; [lia|]. apply nth_error_mid; lia.
  Qed.

  Lemma merge_single_correct n o m (v v1 v2 : payload A) :
    observes1 n v v1 -> observes1 o v1 v2 -> merge nilv n o = Some (Some m) -> observes1 m v v2.
  Proof.
    intros Hn Ho. inversion Hn; subst; inversion Ho; subst; cbn; intros [= <-]; constructor.
  Qed.

  Lemma mergePositions_prefix ps np acc :
    exists k r, mergePositions ps np acc = (acc ++ k, np + zlen k) /\ ps = k ++ r
                /\ Forall (fun p => p < np + zlen k) k.
  Proof.
    revert np acc; induction ps as [|p ps IH]; intros np acc; cbn [mergePositions].
    - exists [], []. rewrite app_nil_r. repeat split; [f_equal; zl|constructor].
    - destruct (Z.leb_spec p np).
      + destruct (IH (np + 1) (acc ++ [p])) as (k & r & E & -> & HF).
        exists (p :: k), r. rewrite E, <- app_assoc. repeat split.
        * cbn [app]. f_equal. zl.
        * constructor; [zl|]. eapply Forall_impl; [|exact HF]. cbn; intros; zl.
      + exists [], (p :: ps). rewrite app_nil_r. repeat split; [f_equal; zl|constructor].
  Qed.

  Lemma merge_list_no_panic n o s s1 s2 :
    observes n s s1 -> observes o s1 s2 -> merge nilv n o <> None.
  Proof.
    intros Hn Ho. inversion Hn; subst; inversion Ho; subst; cbn; try discriminate.
    - destruct (_ <=? _); discriminate.
    - destruct (mergePositions_prefix ps i0 []) as (k & r & E & -> & HF). rewrite E. cbn [app].
      destruct (split_at xs (zlen k)) as (x1 & x2 & -> & Hx); [zl|].
      rewrite <- app_assoc.
      rewrite zslice_post by zl. cbn [obind].
      destruct (x2 ++ [nilv]) as [|y x2'] eqn:Ex; [destruct x2; discriminate|].
      assert (length x2' = length x2) by (apply (f_equal (@length A)) in Ex; zl).
      rewrite <- Ex at 2.
      replace (x1 ++ y :: x2') with ((x1 ++ [y]) ++ x2') by (rewrite <- app_assoc; reflexivity).
      rewrite zcopy_trunc by zl. cbn [obind]. rewrite <- app_assoc. cbn [app].
      rewrite zset_app by lia. cbn [obind]. discriminate.
    - destruct s; cbn in *; destruct (Z.to_nat i); discriminate.
  Qed.

  (** an unsafe absorption by REMOVE_MANY is never correct *)
  Lemma merge_unsafe_wrong n o m s s1 s2 s3 :
    observes n s s1 -> observes o s1 s2 -> evt n = REMOVE_MANY -> ~ merge_safe n o ->
    merge nilv n o = Some (Some m) -> ~ observes m s s3.
  Proof.
    intros Hn Ho He Hs Hm Hobs. inversion Hn; subst; cbn in He; try discriminate;
      inversion Ho; subst; cbn in Hm; try discriminate.
    destruct (mergePositions_prefix ps i0 []) as (k & r & E & -> & HF). rewrite E in Hm. cbn [app] in Hm.
    match type of Hm with obind ?e _ = _ => destruct e as [t|] eqn:E1; cbn [obind] in Hm; [|discriminate] end.
    match type of Hm with obind ?e _ = _ => destruct e as [t2|] eqn:E2; cbn [obind] in Hm; [|discriminate] end.
    match type of Hm with obind ?e _ = _ => destruct e as [t3|] eqn:E3; cbn [obind] in Hm; [|discriminate] end.
    injection Hm as <-.
    assert (Hlen3 : length t3 = S (length xs)).
    { assert (Hc : forall (l : list A) i v l', zset l i v = Some l' -> length l' = length l).
      { clear. intros l i v l'. unfold zset. destruct (Z.leb_spec 0 i), (Z.ltb_spec i (zlen l)); cbn; try discriminate.
        intros [= <-]. zl. }
      assert (Hd : forall (l : list A) i v l', zcopy l i v = Some l' -> length l' = length l).
      { clear. intros l i v l'. unfold zcopy. destruct (Z.leb_spec 0 i), (Z.leb_spec i (zlen l)); cbn; try discriminate.
        intros [= <-]. zl. }
      apply Hc in E3. apply Hd in E2. rewrite E3, E2. zl. }
    inversion Hobs; subst.
    match goal with Hl : length t3 = length _ |- _ => rewrite Hlen3 in Hl; rename Hl into Hbad end.
    destruct r as [|q r].
    - apply Hs. cbn. exists k. rewrite app_nil_r. split; [reflexivity|].
      assumption.
    - cbn [app] in Hbad. rewrite app_length in Hbad. cbn [length] in Hbad.
      rewrite firstn_length, skipn_length, app_length in Hbad. cbn [length] in Hbad.
      match goal with Hx : length xs = length (k ++ q :: r) |- _ => rewrite app_length in Hx; cbn in Hx end.
      lia.
  Qed.
End MergeProofs.
