From Verif Require Import Base ListModel ListSpec ListProofs ListExactSpec.
Local Open Scope list_scope.

Section ListExactProofs.
  Context {A : Type} (eqb : A -> A -> bool) (nilv : A).
  Context (eqb_ok : forall x y, reflect (x = y) (eqb x y)).
  Notation member := (member eqb).
  Notation fresh := (fresh eqb).
  Notation contains := (contains eqb).

  Lemma scanned_keep s xs : forall d, (length xs <= d)%nat -> scanned eqb s d xs = xs.
  Proof.
    induction xs as [|x xs IH]; intros d H; cbn in *; auto.
    destruct (Nat.leb_spec d (length xs)); [lia|]. rewrite andb_false_r, IH by lia. reflexivity.
  Qed.
  Lemma lhs_remove_mid v P R : ~ In v P -> lhs_remove eqb v (P ++ v :: R) = P ++ R.
  Proof.
    induction P as [|y P IH]; intros H; cbn.
    - destruct (eqb_ok v v); congruence.
    - destruct (eqb_ok y v) as [->|]; [exfalso; apply H; left; reflexivity|]. rewrite IH; auto. intros Q. apply H. right. auto.
  Qed.
  Lemma lhs_scan_eq data rest : forall P d, NoDup (P ++ rest) ->
    lhs_scan eqb (length P + d) rest (contains data) (P ++ rest) = P ++ scanned eqb data d rest.
  Proof.
    induction rest as [|v rest IH]; intros P d Hd; cbn [lhs_scan scanned]; auto.
    rewrite app_length. cbn [length]. rewrite (contains_member eqb eqb_ok).
    destruct (Nat.leb_spec d (length rest)) as [Hle|Hgt].
    - destruct (Nat.ltb_spec (length P + d) (length P + S (length rest))); [|lia]. rewrite andb_true_r.
      apply NoDup_middle in Hd as Hd'. destruct Hd' as [Hv Hd']. rewrite in_app_iff in Hv.
      destruct (member v data).
      + rewrite lhs_remove_mid by tauto. rewrite plus_n_Sm. apply IH. auto.
      + specialize (IH (P ++ [v]) d). rewrite <- !app_assoc in IH. cbn [app] in IH. rewrite app_length in IH. cbn [length] in IH.
        replace (length P + 1 + d)%nat with (S (length P + d)) in IH by lia. apply IH. auto.
    - destruct (Nat.ltb_spec (length P + d) (length P + S (length rest))); [lia|].
      rewrite andb_false_r, scanned_keep by lia. reflexivity.
  Qed.
  Lemma getNonDuplicates_eq data c : getNonDuplicates eqb data c = added eqb data c.
  Proof.
    unfold getNonDuplicates, added. rewrite (fold_add_fresh eqb eqb_ok). cbn [app]. cbv zeta.
    destruct (Z.leb_spec (zlen data) (zlen (fresh [] c))), (Nat.leb_spec (length data) (length (fresh [] c))); try zl.
    - rewrite (fresh_nil_filter eqb eqb_ok c data). rewrite fold_remove_filter; auto. apply fresh_NoDup; auto.
    - apply (lhs_scan_eq data (fresh [] c) [] 0). apply fresh_NoDup; auto.
  Qed.

  Lemma step_exact data o : agree (step eqb nilv true data o) (exact_step eqb data o).
  Proof.
    destruct o as [e|c|i e|i c| | | | | | | | | | | | | |]; try (apply step_agrees; [exact eqb_ok | intros _; exact I]).
    - cbn [step exact_step andb]. rewrite getNonDuplicates_eq, (zlen_fresh_zero eqb nilv eqb_ok).
      destruct (added eqb data (elems data c)); cbn; auto.
    - cbn [step exact_step andb]. unfold valid_gap. pose proof (zlen_nonneg data).
      replace ((i <? 0) || (i >? zlen data)) with (negb ((0 <=? i) && (i <=? zlen data))) by lia.
      destruct ((0 <=? i) && (i <=? zlen data)) eqn:Hi; cbn [negb]; [|exact I].
      rewrite getNonDuplicates_eq, (zlen_fresh_zero eqb nilv eqb_ok). destruct (added eqb data (elems data c)); cbn; auto.
      rewrite doInsertAll_eq by lia. cbn. auto.
  Qed.
  Lemma run_exact ops : forall data, run eqb nilv true data ops = exact_run eqb data ops.
  Proof.
    induction ops as [|o ops IH]; intros data; cbn; auto. pose proof (step_exact data o) as H.
    destruct (step eqb nilv true data o) as [[d cb] r|], (exact_step eqb data o) as [[d' r']|]; cbn in H; try tauto.
    destruct H as [-> ->]. rewrite IH. reflexivity.
  Qed.

  (** *** When that is what ought to be added *)
  Definition spaced (s : list A) (d : nat) (ys : list A) : Prop :=
    forall pre x post, ys = pre ++ x :: post -> In x s -> (d + length (filter (fun y => member y s) pre) <= length post)%nat.
  Lemma spaced_cons s d x ys : spaced s d (x :: ys) <->
    (In x s -> (d <= length ys)%nat) /\ spaced s (if member x s then S d else d) ys.
  Proof.
    split.
    - intros H. split.
      + intros Hx. specialize (H [] x ys eq_refl Hx). cbn in H. lia.
      + intros pre y post -> Hy. specialize (H (x :: pre) y post eq_refl Hy). cbn in H. destruct (member x s); cbn in H; lia.
    - intros [H1 H2] pre y post E Hy. destruct pre as [|z pre]; cbn in E; injection E as <- ->.
      + cbn. specialize (H1 Hy). lia.
      + specialize (H2 pre y post eq_refl Hy). cbn. destruct (member x s); cbn; lia.
  Qed.
  Lemma spaced_iff s ys : forall d, spaced s d ys <-> Forall (fun x => ~ In x s) (scanned eqb s d ys).
  Proof.
    induction ys as [|x ys IH]; intros d.
    - split; [constructor|]. intros _ pre y post E. destruct pre; discriminate.
    - rewrite spaced_cons. cbn [scanned]. destruct (member x s) eqn:E.
      + apply member_in in E; auto. destruct (Nat.leb_spec d (length ys)); cbn.
        * rewrite IH. tauto.
        * split; [intros [Q _]; specialize (Q E); lia | intros Q; inversion Q; contradiction].
      + apply member_not_in in E; auto. cbn. rewrite IH. split; [intros [_ Q]; constructor; auto | intros Q; inversion Q; tauto].
  Qed.
  Lemma scanned_filter s ys : forall d, Forall (fun x => ~ In x s) (scanned eqb s d ys) ->
    scanned eqb s d ys = filter (fun x => negb (member x s)) ys.
  Proof.
    induction ys as [|x ys IH]; intros d; cbn [scanned filter]; auto. destruct (member x s) eqn:E; cbn [andb negb].
    - destruct (Nat.leb_spec d (length ys)); [apply IH|]. intros Q. inversion Q. apply member_in in E; auto. contradiction.
    - intros Q. inversion Q. rewrite IH; auto.
  Qed.
  Lemma bulk_Forall s xs : bulk_exact eqb s xs <-> Forall (fun x => ~ In x s) (added eqb s xs).
  Proof.
    unfold bulk_exact, added. cbv zeta. destruct (Nat.leb_spec (length s) (length (fresh [] xs))).
    - split; auto. intros _. apply Forall_forall. intros x Hx. apply fresh_in in Hx; auto. tauto.
    - rewrite <- spaced_iff. unfold spaced. cbn. split; [intros [Q|Q]; [lia | exact Q] | auto].
  Qed.
  Lemma bulk_fresh s xs : bulk_exact eqb s xs <-> added eqb s xs = fresh s xs.
  Proof.
    rewrite bulk_Forall. split.
    - unfold added. cbv zeta. destruct (Nat.leb_spec (length s) (length (fresh [] xs))); auto.
      intros Q. rewrite scanned_filter by auto. rewrite (fresh_nil_filter eqb eqb_ok xs s). reflexivity.
    - intros ->. apply Forall_forall. intros x Hx. apply fresh_in in Hx; auto. tauto.
  Qed.
  Lemma scanned_in s ys x : forall d, In x (scanned eqb s d ys) -> In x ys.
  Proof.
    induction ys as [|y ys IH]; intros d; cbn [scanned]; auto.
    destruct (member y s && (d <=? length ys)%nat); cbn; intros; [right | destruct H; [left|right]]; eauto.
  Qed.
  Lemma added_NoDup s xs : NoDup (added eqb s xs).
  Proof.
    unfold added. cbv zeta. destruct (length s <=? length (fresh [] xs))%nat; [apply fresh_NoDup; auto|].
    pose proof (fresh_NoDup eqb eqb_ok xs []) as Hd. generalize 0%nat. induction (fresh [] xs) as [|y ys IH]; intros d; cbn [scanned].
    - constructor.
    - inversion Hd; subst. destruct (member y s && (d <=? length ys)%nat); auto. constructor; auto.
      intros Q. apply scanned_in in Q. contradiction.
  Qed.

  Lemma exact_spec_iff s o : (forall i c, o = InsertAll i c -> 0 <= i <= zlen s) ->
    (exact_step eqb s o = spec_step eqb true s o <-> op_exact eqb s o).
  Proof.
    intros Hi. destruct o as [e|c|i e|i c| | | | | | | | | | | | | |]; try (cbn; tauto).
    - cbn. rewrite bulk_fresh. split; [|intros ->; reflexivity].
      destruct (added eqb s (elems s c)), (fresh s (elems s c)); intros Q; try discriminate; auto.
      injection Q as Q. apply app_inv_head in Q. congruence.
    - cbn. rewrite bulk_fresh. unfold valid_gap. specialize (Hi i c eq_refl).
      replace ((0 <=? i) && (i <=? zlen s)) with true by lia. split; [|intros ->; reflexivity].
      destruct (added eqb s (elems s c)), (fresh s (elems s c)); intros Q; try discriminate; auto.
      injection Q as Q. unfold insert_all_at in Q. apply app_inv_head in Q.
      change (?a :: ?l ++ ?r) with ((a :: l) ++ r) in Q. apply app_inv_tail in Q. exact Q.
  Qed.
  Lemma NoDup_insert (P l R : list A) : NoDup (P ++ R) -> NoDup l -> (NoDup (P ++ l ++ R) <-> Forall (fun x => ~ In x (P ++ R)) l).
  Proof.
    rewrite !NoDup_app_iff, Forall_forall. intros (H1 & H2 & H3) Hl. split.
    - intros (_ & (_ & _ & Q1) & Q2) x Hx. rewrite in_app_iff. intros [Q|Q]; [apply (Q2 x Q); apply in_app_iff; auto | apply (Q1 x); auto].
    - intros Q. split; auto. split.
      + split; auto. split; auto. intros x Hx Hy. apply (Q x Hx). apply in_app_iff; auto.
      + intros x Hx Hy. apply in_app_iff in Hy. destruct Hy as [Hy|Hy]; [apply (Q x Hy); apply in_app_iff; auto | apply (H3 x); auto].
  Qed.
  Lemma exact_NoDup s o s' r : NoDup s -> exact_step eqb s o = Some (s', r) -> (NoDup s' <-> op_exact eqb s o).
  Proof.
    intros Hd. destruct o as [e|c|i e|i c| | | | | | | | | | | | | |];
      try (intros E; split; [intros _; exact I | intros _; exact (spec_step_NoDup eqb nilv eqb_ok _ _ _ _ Hd E)]).
    - cbn. rewrite bulk_Forall. pose proof (added_NoDup s (elems s c)) as Ha.
      destruct (added eqb s (elems s c)) as [|y ys]; intros [= <- <-]; [split; auto|].
      pose proof (NoDup_insert s (y :: ys) []) as Q. rewrite !app_nil_r in Q. auto.
    - cbn. rewrite bulk_Forall. pose proof (added_NoDup s (elems s c)) as Ha. destruct (valid_gap i (zlen s)); [|discriminate].
      destruct (added eqb s (elems s c)) as [|y ys]; intros [= <- <-]; [split; auto|].
      unfold insert_all_at. rewrite NoDup_insert; rewrite ?firstn_skipn; auto. tauto.
  Qed.

  Lemma run_history ops : forall data, history_exact eqb data ops -> run eqb nilv true data ops = spec_run eqb true data ops.
  Proof.
    intros data. rewrite run_exact. revert data. induction ops as [|o ops IH]; intros data; cbn; auto. intros [Ho H].
    assert (E : exact_step eqb data o = spec_step eqb true data o).
    { destruct o as [e|c|i e|i c| | | | | | | | | | | | | |]; try reflexivity.
      - apply exact_spec_iff; auto. discriminate.
      - destruct (valid_gap i (zlen data)) eqn:V; [|cbn; rewrite V; reflexivity].
        apply exact_spec_iff; auto. intros i' c' [= <- <-]. unfold valid_gap in V. lia. }
    rewrite E. destruct (spec_step eqb true data o) as [[s' r]|]; auto. rewrite IH; auto.
  Qed.
  Lemma run_history_NoDup ops : forall data rs fin, NoDup data -> history_exact eqb data ops ->
    run eqb nilv true data ops = (rs, Some fin) -> NoDup fin.
  Proof.
    intros data rs fin Hd H. rewrite run_history by auto. revert data rs fin Hd H.
    induction ops as [|o ops IH]; intros data rs fin Hd; cbn; [intros _ [= <- <-]; auto|]. intros [_ H].
    destruct (spec_step eqb true data o) as [[s' r]|] eqn:E; [|discriminate].
    destruct (spec_run eqb true s' ops) as [rs' fin'] eqn:E'. intros [= <- ->].
    eapply IH; [|exact H|exact E']. eapply spec_step_NoDup; eassumption.
  Qed.
End ListExactProofs.
