From Verif Require Import Base SearchModel SearchSpec.

Section SearchProofs.
  Context {A T : Type} (cmp : A -> T -> Z).

  Lemma midpoint_eq i j : 0 <= i -> 0 <= j -> i + j < 2 ^ 64 -> midpoint i j = (i + j) / 2.
  Proof.
    intros. unfold midpoint. rewrite Z.mod_small by lia. rewrite Z.shiftr_div_pow2 by lia. reflexivity.
  Qed.

  Lemma zget_in (l : list A) i : 0 <= i < zlen l -> exists x, zget l i = Some x /\ nth_error l (Z.to_nat i) = Some x.
  Proof.
    intro H. unfold zget. destruct (Z.ltb_spec i 0); [lia|].
    destruct (nth_error_lt_some l (Z.to_nat i)) as [x Hx]; [zl|]. eauto.
  Qed.

  Lemma search_loop_total fuel l t i j :
    zlen l < 2 ^ 63 -> 0 <= i <= j -> j <= zlen l -> j - i < Z.of_nat fuel ->
    exists p b, search_loop cmp fuel l t i j = Found p b /\ 0 <= p <= zlen l.
  Proof.
    intro Hl. revert i j; induction fuel as [|fuel IH]; intros i j H1 H2 H3; [lia|]. cbn [search_loop].
    destruct (Z.ltb_spec i j).
    - cbv zeta. rewrite midpoint_eq by lia.
      destruct (zget_in l ((i + j) / 2)) as (x & -> & _); [lia|].
      destruct (cmp x t <? 0); apply IH; lia.
    - destruct (Z.ltb_spec i (zlen l)).
      + destruct (zget_in l i) as (x & -> & _); [lia|]. eexists _, _; split; [reflexivity|lia].
      + eexists _, _; split; [reflexivity|lia].
  Qed.

  Lemma search_loop_correct fuel l t i j p b :
    zlen l < 2 ^ 63 -> sorted_for cmp l t -> 0 <= i <= j -> j <= zlen l ->
    (forall n x, (n < Z.to_nat i)%nat -> nth_error l n = Some x -> cmp x t < 0) ->
    (forall n x, (Z.to_nat j <= n)%nat -> nth_error l n = Some x -> 0 <= cmp x t) ->
    search_loop cmp fuel l t i j = Found p b ->
    insertion_point cmp l t (Z.to_nat p) /\ 0 <= p /\
    (b = true <-> exists x, nth_error l (Z.to_nat p) = Some x /\ cmp x t = 0).
  Proof.
    intros Hl Hs. revert i j; induction fuel as [|fuel IH]; intros i j H1 H2 Hlo Hhi; cbn [search_loop]; [discriminate|].
    destruct (Z.ltb_spec i j).
    - cbv zeta. rewrite midpoint_eq by lia.
      destruct (zget_in l ((i + j) / 2)) as (x & -> & Hx); [lia|].
      destruct (Z.ltb_spec (cmp x t) 0) as [Hc|Hc]; apply IH; try lia; auto.
      + intros n y Hn Hy. destruct (Nat.eq_dec n (Z.to_nat ((i + j) / 2))) as [->|]; [congruence|].
        destruct (Z.lt_ge_cases (cmp y t) 0); [assumption|].
        enough (0 <= cmp x t) by lia.
        eapply (Hs n (Z.to_nat ((i + j) / 2)) y x); eauto. lia.
      + intros n y Hn Hy. destruct (Nat.eq_dec n (Z.to_nat ((i + j) / 2))) as [->|]; [congruence|].
        eapply (Hs (Z.to_nat ((i + j) / 2)) n x y); eauto. lia.
    - assert (i = j) as <- by lia.
      destruct (Z.ltb_spec i (zlen l)).
      + destruct (zget_in l i) as (x & -> & Hx); [lia|]. intros [= <- <-].
        split; [|split].
        * split; [zl|split; assumption].
        * lia.
        * rewrite Hx. split.
          -- intro E. exists x. split; [reflexivity|lia].
          -- intros (y & [= <-] & E). lia.
      + intros [= <- <-]. split; [|split].
        * split; [zl|split; assumption].
        * lia.
        * split; [discriminate|]. intros (x & Hx & _).
          assert (nth_error l (Z.to_nat i) <> None) as Hn by congruence.
          apply nth_error_Some in Hn. zl.
  Qed.

  Lemma search_total l t : zlen l < 2 ^ 63 -> exists p b, BinarySearch cmp l t = Found p b /\ 0 <= p <= zlen l.
  Proof. intro H. unfold BinarySearch. pose proof (zlen_nonneg l). apply search_loop_total; try lia. unfold zlen; lia. Qed.

  Lemma search_point l t p b : zlen l < 2 ^ 63 -> sorted_for cmp l t ->
    BinarySearch cmp l t = Found p b ->
    insertion_point cmp l t (Z.to_nat p) /\ 0 <= p /\
    (b = true <-> exists x, nth_error l (Z.to_nat p) = Some x /\ cmp x t = 0).
  Proof.
    intros Hl Hs H. pose proof (zlen_nonneg l). eapply search_loop_correct in H; eauto; try lia.
    - intros n x Hn Hx. assert (nth_error l n <> None) as Hq by congruence.
      apply nth_error_Some in Hq. zl.
  Qed.

  Lemma search_correct l t : zlen l < 2 ^ 63 -> sorted_for cmp l t ->
    exists p b, BinarySearch cmp l t = Found (Z.of_nat p) b /\
      insertion_point cmp l t p /\
      (b = true -> exists x, nth_error l p = Some x /\ cmp x t = 0) /\
      (b = false -> forall x, In x l -> cmp x t <> 0).
  Proof.
    intros Hl Hs. destruct (search_total l t Hl) as (p & b & E & Hp).
    destruct (search_point l t p b Hl Hs E) as (H1 & H2 & H3).
    exists (Z.to_nat p), b. rewrite Z2Nat.id by lia. split; [assumption|]. split; [assumption|]. split; [apply H3|].
    intros -> x Hx Hc. destruct (In_nth_error _ _ Hx) as [n Hn].
    destruct H1 as (Hle & Hlo & Hhi).
    destruct (Nat.lt_ge_cases n (Z.to_nat p)) as [Hlt|Hge].
    - specialize (Hlo _ _ Hlt Hn). lia.
    - assert (n <> Z.to_nat p) by (intros ->; assert (false = true) by (apply H3; eauto); discriminate).
      destruct (nth_error_lt_some l (Z.to_nat p)) as [y Hy].
      { assert (nth_error l n <> None) as Hq by congruence. apply nth_error_Some in Hq. lia. }
      specialize (Hhi _ _ (le_n _) Hy).
      assert (cmp y t <> 0) by (intro; assert (false = true) by (apply H3; eauto); discriminate).
      assert (0 < cmp x t) by (eapply (Hs (Z.to_nat p) n y x); eauto; lia). lia.
  Qed.

  (** inserting a matching element at the insertion point keeps the list sorted *)
  Lemma insertion_sorted l t p z : sorted_for cmp l t -> insertion_point cmp l t p -> cmp z t = 0 ->
    sorted_for cmp (firstn p l ++ z :: skipn p l) t.
  Proof.
    intros Hs (Hle & Hlo & Hhi) Hz n m x y Hnm Hx Hy.
    assert (L : length (firstn p l) = p) by (rewrite firstn_length; lia).
    assert (G : forall k w, nth_error (firstn p l ++ z :: skipn p l) k = Some w ->
              ((k < p)%nat /\ nth_error l k = Some w) \/ (k = p /\ w = z) \/ ((p < k)%nat /\ nth_error l (k - 1) = Some w)).
    { intros k w Hk. destruct (Nat.lt_trichotomy k p) as [H|[H|H]].
      - left. rewrite nth_error_app1, nth_error_firstn_if in Hk by lia.
        destruct (Nat.ltb_spec k p); [auto|lia].
      - right; left. rewrite nth_error_app2, L in Hk by lia.
        replace (k - p)%nat with 0%nat in Hk by lia. cbn in Hk. split; [assumption|congruence].
      - right; right. rewrite nth_error_app2, L, nth_error_cons_if, nth_error_skipn_if in Hk by lia.
        destruct (Nat.eqb_spec (k - p) 0); [lia|]. split; [assumption|].
        replace (k - 1)%nat with (p + (k - p - 1))%nat by lia. assumption. }
    apply G in Hx. apply G in Hy.
    destruct Hx as [[Hx1 Hx2]|[[Hx1 Hx2]|[Hx1 Hx2]]]; destruct Hy as [[Hy1 Hy2]|[[Hy1 Hy2]|[Hy1 Hy2]]]; subst; try lia.
    - eapply (Hs n m); eauto.
    - specialize (Hlo _ _ Hx1 Hx2). lia.
    - specialize (Hlo _ _ Hx1 Hx2). lia.
    - assert (0 <= cmp y t) by (eapply Hhi; [|eassumption]; lia). lia.
    - eapply (Hs (n - 1)%nat (m - 1)%nat); eauto. lia.
  Qed.
End SearchProofs.
