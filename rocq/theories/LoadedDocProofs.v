(** Proofs about the loaded flag of resources that are also loaded from documents. *)
From Verif Require Import Base LoadedModel LoadedSpec LoadedProofs LoadedDocSpec.

Definition backed (s : rstate) : Prop := ((0 < size s)%nat -> flag s = true) /\ forall c, cur s = Some c -> (c < length (sizes s))%nat.

(** a call on the current list: contents mean loaded; and where the flag is set without contents, it was before *)
Lemma dstep_backed s o s' : backed s -> on_current s o -> dstep s o = Some s' ->
  backed s' /\ (flag s' = true -> size s' = 0%nat -> flag s = true /\ size s = 0%nat).
Proof.
  intros [Af Ac] C E. destruct o as [|o]; cbn in E.
  - injection E as <-. unfold getContents. destruct (cur s) as [c|] eqn:Ec; [split; [split; [exact Af|rewrite Ec; intros x [= <-]; now apply Ac]|auto]|].
    assert (Z : size s = 0%nat) by (unfold size; now rewrite Ec). split; [|intros F _; split; [exact F|exact Z]]. split; cbn.
    + unfold size. cbn. rewrite app_nth2, Nat.sub_diag by lia. cbn. lia.
    + intros c [= <-]. rewrite app_length. cbn. lia.
  - cbn in C. pose proof (Ac _ C) as L. assert (Sz : size s = nth (list_of o) (sizes s) 0%nat) by (unfold size; now rewrite C).
    assert (Nt : nth_error (sizes s) (list_of o) = Some (size s)) by (rewrite Sz; now apply nth_error_nth').
    destruct o as [h i n|h i n|h]; cbn [lstep list_of] in *; rewrite Nt in E; cbn [obind] in E.
    + destruct (i <=? size s)%nat eqn:Le; [|discriminate]. apply Nat.leb_le in Le. injection E as <-.
      destruct (fold_flag (fun j => (j =? size s + n - 1)%nat) true (seq i n) (resize s h (size s + n))) as (F1 & F2 & F3).
      unfold backed. rewrite F1, F2, F3, (size_resize _ _ _ _ C L F2 F3). cbn [resize flag cur sizes].
      rewrite length_put_size. destruct (existsb (fun j => (j =? size s + n - 1)%nat) (seq i n)) eqn:X.
      * apply existsb_exists in X as (j & Hj & _). apply in_seq in Hj. split; [split; [reflexivity|exact Ac]|lia].
      * split; [split; [|exact Ac]|intros F Z; split; [exact F|lia]]. intro P. destruct (Nat.eq_dec (size s) 0) as [Z|Z]; [|apply Af; lia]. exfalso.
        assert (Y : existsb (fun j => (j =? size s + n - 1)%nat) (seq i n) = true); [|congruence].
        apply existsb_exists. exists (n - 1)%nat. split; [apply in_seq; lia|apply Nat.eqb_eq; lia].
    + destruct (i + n <=? size s)%nat eqn:Le; [|discriminate]. apply Nat.leb_le in Le. injection E as <-.
      destruct (fold_flag (fun _ : nat => (size s - n =? 0)%nat) false (seq i n) (resize s h (size s - n))) as (F1 & F2 & F3).
      unfold backed. rewrite F1, F2, F3, (size_resize _ _ _ _ C L F2 F3). cbn [resize flag cur sizes].
      rewrite length_put_size. destruct (existsb (fun _ : nat => (size s - n =? 0)%nat) (seq i n)) eqn:X.
      * apply existsb_exists in X as (j & _ & Hz). apply Nat.eqb_eq in Hz. split; [split; [lia|exact Ac]|discriminate].
      * split; [split; [intro P; apply Af; lia|exact Ac]|]. intros F Z. split; [exact F|]. destruct (Nat.eq_dec n 0) as [N|N]; [lia|].
        exfalso. assert (Y : existsb (fun _ : nat => (size s - n =? 0)%nat) (seq i n) = true); [|congruence].
        apply existsb_exists. exists i. split; [apply in_seq; lia|now apply Nat.eqb_eq].
    + injection E as <-. destruct (set_flag false (resize s h 0)) as (F1 & F2 & F3).
      unfold backed. rewrite F1, F2, F3, (size_resize _ _ _ _ C L F2 F3). cbn [resize cur sizes]. rewrite length_put_size.
      split; [split; [lia|exact Ac]|discriminate].
Qed.
Lemma drun_backed l : forall s s', backed s -> dcurrent s l -> drun s l = Some s' -> backed s'.
Proof.
  induction l as [|o l IH]; intros s s' B; cbn; [intros _ [= <-]; exact B|]. intros [C R].
  destruct (dstep s o) as [s1|] eqn:E; cbn; [|discriminate]. apply IH; [|exact R]. exact (proj1 (dstep_backed s o s1 B C E)).
Qed.
Definition from_document (s0 : rstate) (l : list rop) : Prop :=
  exists l1 ops l2 s1, l = l1 ++ RLoad ops :: l2 /\ rrun s0 l1 = Some s1 /\ flag s1 = false /\ ~ In RUnload l2.
Lemma from_document_cons s0 o s1 l : rstep s0 o = Some s1 -> from_document s1 l -> from_document s0 (o :: l).
Proof.
  intros E (l1 & ops & l2 & s2 & -> & R & F & N). exists (o :: l1), ops, l2, s2. cbn. rewrite E. auto.
Qed.
Lemma run_backed l : forall s s', backed s -> current_too s l -> rrun s l = Some s' ->
  backed s' /\ (flag s' = true -> size s' = 0%nat -> from_document s l \/ (flag s = true /\ size s = 0%nat /\ ~ In RUnload l)).
Proof.
  induction l as [|o l IH]; intros s s' B; cbn [rrun current_too]; [intros _ [= <-]; split; [exact B|auto]|]. intros [C R].
  destruct (rstep s o) as [s1|] eqn:E; cbn [obind]; [|discriminate]. intro Run.
  destruct o as [o|ops|]; cbn in E.
  - destruct (dstep_backed s o s1 B C E) as [B1 K]. destruct (IH s1 s' B1 R Run) as [B' D]. split; [exact B'|]. intros F Z.
    destruct (D F Z) as [D1|(F1 & Z1 & N)]; [left; exact (from_document_cons s (ROp o) s1 l E D1)|]. destruct (K F1 Z1) as [F0 Z0].
    right. split; [exact F0|]. split; [exact Z0|]. intros [H|H]; [discriminate|auto].
  - destruct (flag s) eqn:Fl.
    + injection E as <-. destruct (IH s s' B R Run) as [B' D]. split; [exact B'|]. intros F Z. destruct (D F Z) as [D1|(F1 & Z1 & N)].
      * left. apply (from_document_cons s (RLoad ops) s); [cbn; now rewrite Fl|exact D1].
      * right. split; [reflexivity|]. split; [exact Z1|]. intros [H|H]; [discriminate|auto].
    + destruct (drun (Rs true (cur s) (sizes s) (told s)) ops) as [s2|] eqn:Dr; cbn in E; [|discriminate].
      assert (B2 : backed s2). { refine (drun_backed ops _ s2 _ C Dr). split; [reflexivity|exact (proj2 B)]. }
      assert (B1 : backed s1) by (injection E as <-; exact B2). destruct (IH s1 s' B1 R Run) as [B' D]. split; [exact B'|]. intros F Z. left.
      destruct (D F Z) as [D1|(F1 & Z1 & N)].
      * apply (from_document_cons s (RLoad ops) s1); [cbn; rewrite Fl, Dr; exact E|exact D1].
      * exists [], ops, l, s. auto.
  - assert (B1 : backed s1).
    { injection E as <-. destruct (flag s); [|exact B]. split; cbn; [unfold size; cbn; lia|discriminate]. }
    destruct (IH s1 s' B1 R Run) as [B' D]. split; [exact B'|]. intros F Z. destruct (D F Z) as [D1|(F1 & _)].
    + left. exact (from_document_cons s RUnload s1 l E D1).
    + exfalso. injection E as <-. destruct (flag s) eqn:Fl; [discriminate|congruence].
Qed.
