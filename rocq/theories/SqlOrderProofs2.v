(** Exact and binary64 positions of stored lists. *)
From Coq Require Import Sorted Permutation QArith SpecFloat Lqa.
From Verif Require Import Base SqlOrderModel SqlOrderSpec SqlOrderProofs.
Open Scope Z_scope.

(** *** orders *)
Lemma ltQ a b : ltn rationals a b = true <-> (a < b)%Q.
Proof.
  cbn. rewrite negb_true_iff. split; intro H.
  - apply Qnot_le_lt. intro Q. apply Qle_bool_iff in Q. congruence.
  - destruct (Qle_bool b a) eqn:E; [|reflexivity]. apply Qle_bool_iff in E. apply Qlt_not_le in H. contradiction.
Qed.
Lemma strict_rationals : strict rationals.
Proof.
  constructor.
  - intros x. destruct (ltn rationals x x) eqn:E; [|reflexivity]. apply ltQ in E. exfalso. revert E. apply Qlt_irrefl.
  - intros x y z. rewrite !ltQ. apply Qlt_trans.
Qed.
Lemma strict_binary64 : strict binary64.
Proof.
  constructor; cbn.
  - intros x. unfold SFltb, SFcompare. destruct x as [s|[]| |[] m e]; auto; rewrite Z.compare_refl, Pos.compare_cont_refl; reflexivity.
  - intros x y z. unfold SFltb, SFcompare.
    destruct x as [sx|[]| |[] mx ex], y as [sy|[]| |[] my ey], z as [sz|[]| |[] mz ez]; auto; try discriminate;
      try (destruct (Z.compare_spec ex ey), (Z.compare_spec ey ez), (Z.compare_spec ex ez); try lia; try discriminate; auto;
           fold (Pos.compare mx my) (Pos.compare my mz) (Pos.compare mx mz);
           destruct (Pos.compare_spec mx my), (Pos.compare_spec my mz), (Pos.compare_spec mx mz); cbn; try lia; try discriminate; auto).
Qed.

(** *** moving *)
Lemma sorted_remove {A} (R : A -> A -> Prop) l1 y l2 : StronglySorted R (l1 ++ y :: l2) -> StronglySorted R (l1 ++ l2).
Proof.
  rewrite !sorted_app. intros (H1 & H2 & H3). apply StronglySorted_inv in H2 as [H2 _].
  split; [exact H1|]. split; [exact H2|]. intros a b Ha Hb. apply H3; [exact Ha|now right].
Qed.
Lemma firstn_len {A} (l1 l2 : list A) n : n = length l1 -> firstn n (l1 ++ l2) = l1.
Proof. intros ->. rewrite firstn_app, Nat.sub_diag, firstn_all. cbn. apply app_nil_r. Qed.
Lemma skipn_len {A} (l1 l2 : list A) n : n = length l1 -> skipn n (l1 ++ l2) = l2.
Proof. intros ->. rewrite skipn_app, Nat.sub_diag, skipn_all. reflexivity. Qed.
Lemma between_move N (xs : list (num N)) s d x :
  0 <= s < zlen xs -> 0 <= d < zlen xs ->
  between N xs (Z.to_nat (if d >? s then d + 1 else d)) [x] -> between N (remove_at xs s) (Z.to_nat d) [x].
Proof.
  intros Hs Hd [B F]. split; [|exact F]. unfold zlen in *.
  destruct (nth_error xs (Z.to_nat s)) as [y|] eqn:E; [|apply nth_error_None in E; lia].
  pose proof (nth_cut _ _ _ E) as Cut. unfold remove_at.
  set (p := firstn (Z.to_nat s) xs) in *. set (q := skipn (S (Z.to_nat s)) xs) in *.
  assert (Lp : length p = Z.to_nat s) by (unfold p; rewrite firstn_length; lia).
  assert (Lq : (length xs = length p + S (length q))%nat) by (rewrite Cut at 1; rewrite app_length; cbn; lia).
  unfold increasing in *. destruct (d >? s) eqn:C.
  - set (q1 := firstn (Z.to_nat d - length p) q). set (q2 := skipn (Z.to_nat d - length p) q).
    assert (Eq : q = q1 ++ q2) by (symmetry; apply firstn_skipn).
    assert (L1 : length q1 = (Z.to_nat d - length p)%nat) by (unfold q1; rewrite firstn_length; lia).
    replace xs with ((p ++ y :: q1) ++ q2) in B by (rewrite <- app_assoc; cbn; now rewrite <- Eq).
    rewrite firstn_len, skipn_len in B by (rewrite app_length; cbn; lia).
    replace (p ++ q) with ((p ++ q1) ++ q2) by (rewrite <- app_assoc; now rewrite <- Eq).
    rewrite firstn_len, skipn_len by (rewrite app_length; lia).
    rewrite <- app_assoc in B |- *. cbn [app] in B. now apply sorted_remove in B.
  - set (p1 := firstn (Z.to_nat d) p). set (p2 := skipn (Z.to_nat d) p).
    assert (Ep : p = p1 ++ p2) by (symmetry; apply firstn_skipn).
    assert (L1 : length p1 = Z.to_nat d) by (unfold p1; rewrite firstn_length; lia).
    replace xs with (p1 ++ p2 ++ y :: q) in B by (rewrite app_assoc, <- Ep; now symmetry).
    rewrite firstn_len, skipn_len in B by lia.
    replace (p ++ q) with (p1 ++ p2 ++ q) by (rewrite app_assoc; now rewrite <- Ep).
    rewrite firstn_len, skipn_len by lia.
    rewrite !app_assoc in B |- *. now apply sorted_remove in B.
Qed.

(** *** exact positions *)
Section Exact.
  Context {V : Type} (veqb : V -> V -> bool).
  Notation R := rationals.
  Notation row := (@row V R).
  Notation table := (list row).
  Notation idx := (idx R).
  Notation keeps := (keeps R).

  Definition positive (t : table) : Prop := Forall (fun r : row => (0 < idx r)%Q) t.
  Lemma pos_not_minus x : (0 < x)%Q -> eqn R x (minusOne R) = false.
  Proof. intro H. cbn. destruct (Qeq_bool x (-1 # 1)) eqn:E; [|reflexivity]. apply Qeq_bool_iff in E. lra. Qed.

  Lemma incr_app l1 x l2 :
    increasing R (l1 ++ l2) ->
    (forall l a, l1 = l ++ [a] -> (a < x)%Q) -> (forall b l, l2 = b :: l -> (x < b)%Q) -> increasing R (l1 ++ [x] ++ l2).
  Proof.
    unfold increasing. intros H Ha Hb. apply sorted_app in H as (S1 & S2 & S3). apply sorted_app.
    assert (A : forall a, In a l1 -> ltn R a x = true).
    { intros a Hin. destruct (exists_last (l := l1)) as (l & z & ->); [intro Q; rewrite Q in Hin; destruct Hin|].
      apply in_app_iff in Hin as [Hin|[<-|[]]]; [|apply ltQ; eauto]. apply (ltn_trans R strict_rationals _ z); [|apply ltQ; eauto].
      apply sorted_app in S1 as (_ & _ & S1). apply S1; [exact Hin|now left]. }
    assert (B : forall b, In b l2 -> ltn R x b = true).
    { intros b Hin. destruct l2 as [|z l]; [destruct Hin|]. destruct Hin as [<-|Hin]; [apply ltQ; eauto|]. apply (ltn_trans R strict_rationals _ z); [apply ltQ; eauto|].
      apply StronglySorted_inv in S2 as [_ S2]. rewrite Forall_forall in S2. auto. }
    split; [exact S1|]. split.
    - constructor; [exact S2|]. apply Forall_forall. exact B.
    - intros a b Hin [<-|Hb']; auto.
  Qed.

  (** at the end *)
  Lemma steps_end n : forall l x, increasing R l -> (0 < x)%Q -> (forall a, In a l -> (a < x)%Q) ->
    increasing R (l ++ steps R x (one R) n) /\ Forall (fun x => (0 < x)%Q) (steps R x (one R) n).
  Proof.
    induction n as [|n IH]; intros l x H Hx Hl; cbn [steps]; [rewrite app_nil_r; auto|].
    assert (Ho : (one R == 1)%Q) by reflexivity.
    destruct (IH (l ++ [x]) (addn R x (one R))) as [G1 G2].
    - unfold increasing in *. apply sorted_app. split; [exact H|]. split; [repeat constructor|]. intros a b Ha [<-|[]]. apply ltQ. auto.
    - cbn [addn rationals]. lra.
    - intros a Ha. cbn [addn rationals]. apply in_app_iff in Ha as [Ha|[<-|[]]]; [specialize (Hl a Ha)|]; lra.
    - rewrite <- app_assoc in G1. cbn [app] in G1. split; [exact G1|]. constructor; assumption.
  Qed.

  Lemma skipn_cut {A} (l : list A) i a l' : skipn i l = a :: l' -> firstn (S i) l = firstn i l ++ [a] /\ skipn (S i) l = l' /\ nth_error l i = Some a.
  Proof. revert i. induction l as [|x l IH]; intros [|i] H; cbn in *; try discriminate; [now injection H as -> ->|]. destruct (IH i H) as (E1 & E2 & E3). rewrite E1. auto. Qed.

  Lemma half : (increment R 1 == 1 # 2)%Q.
  Proof. reflexivity. Qed.

  (** one element anywhere, or several at the end *)
  Lemma insert_between t L k i nb x inc :
    keeps t L -> positive t -> 0 <= i -> getInsertIdx R t k i nb = Some (x, inc) -> nb = 1%nat \/ i = zlen (L k) ->
    between R (map idx (select R t k)) (Z.to_nat i) (steps R x inc nb) /\ Forall (fun x => (0 < x)%Q) (steps R x inc nb).
  Proof.
    intros K P Hi E Hnb. pose proof K as [K1 K2 K3 K4 K5]. pose proof (K4 k) as C. unfold chain in C.
    assert (El : length (select R t k) = length (L k)) by (rewrite <- (K5 k); symmetry; apply map_length).
    assert (Pc : forall r, In r (select R t k) -> (0 < idx r)%Q).
    { intros r Hr. apply select_in in Hr as [Hr _]. unfold positive in P. rewrite Forall_forall in P. auto. }
    set (c := select R t k) in *.
    assert (Fin : forall l1 l2 ys, map idx c = l1 ++ l2 -> length l1 = Z.to_nat i -> increasing R (l1 ++ ys ++ l2) -> Forall (fun x => (0 < x)%Q) ys ->
              between R (map idx c) (Z.to_nat i) ys /\ Forall (fun x => (0 < x)%Q) ys).
    { intros l1 l2 ys Ec Ll Hs Hp. split; [|exact Hp]. split.
      - rewrite Ec, firstn_len, skipn_len by lia. exact Hs.
      - eapply Forall_impl; [|exact Hp]. intros a. apply pos_not_minus. }
    unfold getInsertIdx in E. fold c in E. clearbody c. destruct (Z.eqb_spec i 0) as [->|Hn].
    - unfold limitOffset in E. cbn [Z.to_nat skipn] in E. destruct c as [|r c]; cbn [firstn] in E.
      + injection E as <- <-. destruct (steps_end nb [] (one R)) as [G1 G2]; [constructor|reflexivity|intros a []|].
        apply (Fin [] []); auto. rewrite app_nil_r. exact G1.
      + injection E as <- <-. destruct Hnb as [-> |Hz]; [|exfalso; cbn in El; unfold zlen in Hz; lia].
        cbn [steps]. assert (Pr : (0 < idx r)%Q) by (apply Pc; now left). pose proof half as Hh.
        assert (Q1 : (0 < muln R (idx r) (increment R 1))%Q) by (cbn [muln rationals]; rewrite Hh; lra).
        apply (Fin [] (map idx (r :: c))); auto.
        apply incr_app; auto.
        * intros l a Q. destruct l; discriminate.
        * intros b l Q. injection Q as <- _. cbn [muln rationals]. rewrite Hh. lra.
    - unfold limitOffset in E. destruct (skipn (Z.to_nat (i - 1)) c) as [|r [|r' rest]] eqn:Es; cbn [firstn] in E; [discriminate| |].
      + destruct (skipn_cut _ _ _ _ Es) as (E1 & E2 & E3). replace (S (Z.to_nat (i - 1))) with (Z.to_nat i) in * by lia.
        assert (Li : length c = Z.to_nat i).
        { assert (Q : (length (skipn (Z.to_nat (i - 1)) c) = 1)%nat) by now rewrite Es. rewrite skipn_length in Q. lia. }
        injection E as <- <-. set (x := addn R (addn R (ofNat R 0) (idx r)) (one R)).
        assert (Hr : (0 < idx r)%Q) by (apply Pc; eapply nth_error_In; eauto).
        assert (Ex : (x == idx r + 1)%Q) by (unfold x; cbn; change (inject_Z (Z.of_nat 0)) with 0%Q; change (one R) with 1%Q; ring).
        destruct (steps_end nb (map idx c) x) as [G1 G2]; [exact C|lra| |].
        { intros a Ha. rewrite <- (firstn_all c), Li, E1 in Ha. rewrite map_app in Ha. apply in_app_iff in Ha as [Ha|[<-|[]]]; [|lra].
          assert (Hlt : ltn R a (idx r) = true); [|apply ltQ in Hlt; lra].
          rewrite <- (firstn_all c), Li, E1, map_app in C. apply sorted_app in C as (_ & _ & C). apply C; [exact Ha|now left]. }
        apply (Fin (map idx c) []); auto; [now rewrite app_nil_r|now rewrite map_length|]. rewrite app_nil_r. exact G1.
      + destruct (skipn_cut _ _ _ _ Es) as (E1 & E2 & E3). replace (S (Z.to_nat (i - 1))) with (Z.to_nat i) in * by lia.
        destruct Hnb as [-> |Hz].
        2:{ exfalso. assert (Q : (2 <= length (skipn (Z.to_nat (i - 1)) c))%nat) by (rewrite Es; cbn; lia). rewrite skipn_length, El in Q. unfold zlen in Hz. lia. }
        injection E as Ex0 _. change (steps R x inc 1) with [x].
        assert (Ex : (x == (idx r + idx r') * (1 # 2))%Q).
        { rewrite <- Ex0. cbn [muln addn rationals]. change (ofNat rationals 0) with 0%Q. pose proof half as Hh. cbn [rationals] in Hh. rewrite Hh. ring. }
        assert (Hr : (0 < idx r)%Q) by (apply Pc; eapply nth_error_In; eauto).
        assert (Hrr : (idx r < idx r')%Q).
        { apply ltQ. rewrite <- (firstn_skipn (Z.to_nat (i - 1)) c), Es, map_app in C. apply sorted_app in C as (_ & C & _). cbn in C.
          apply StronglySorted_inv in C as [_ C]. now apply Forall_cons_iff in C as [C _]. }
        apply (Fin (map idx (firstn (Z.to_nat i) c)) (map idx (skipn (Z.to_nat i) c))).
        * now rewrite <- map_app, firstn_skipn.
        * rewrite map_length, firstn_length. assert ((Z.to_nat (i - 1) < length c)%nat) by (apply nth_error_Some; congruence). lia.
        * apply incr_app.
          -- rewrite <- map_app, firstn_skipn. exact C.
          -- rewrite E1, map_app. intros l a Q. apply app_inj_tail in Q as [_ <-]. lra.
          -- rewrite E2. cbn. intros b l Q. injection Q as <- _. lra.
        * repeat constructor. lra.
  Qed.

  Lemma positive_insertAll k vs : forall t x inc, positive t -> Forall (fun x => (0 < x)%Q) (steps R x inc (length vs)) -> positive (insertAll R t k x inc vs).
  Proof.
    induction vs as [|v vs IH]; intros t x inc P F; cbn [insertAll length steps] in *; [exact P|]. apply Forall_cons_iff in F as [F1 F2].
    apply IH; [|exact F2]. unfold insert. apply Forall_app. split; [exact P|]. repeat constructor. exact F1.
  Qed.
  Lemma positive_filter p t : positive t -> positive (filter p t).
  Proof. unfold positive. rewrite !Forall_forall. intros H x Hx. apply filter_In in Hx. now apply H. Qed.

  Lemma exact_step t L o : keeps t L -> positive t -> valid_op L o -> simple_op L o ->
    precise R t o /\ positive (fst (sstep veqb R t o)).
  Proof.
    intros K P Hv Hs. pose proof K as [K1 K2 K3 K4 K5].
    assert (El : forall k, length (select R t k) = length (L k)) by (intros k; rewrite <- (K5 k); symmetry; apply map_length).
    destruct o as [k vs|k i v|k i vs|k i|k s d|k i v|k|k i|k|k|k v|k v|k v|k]; cbn [sstep precise valid_op simple_op fst] in *; auto using positive_filter.
    - destruct (steps_end (length vs) [] (one R)) as [G1 G2]; [constructor|reflexivity|intros a []|]. split.
      + split; [cbn; rewrite app_nil_r; exact G1|]. eapply Forall_impl; [|exact G2]. intros a. apply pos_not_minus.
      + now apply positive_insertAll.
    - destruct (getInsertIdx R t k i 1) as [[x inc]|] eqn:E; [|auto].
      destruct (insert_between t L k i 1 x inc K P Hv E (or_introl eq_refl)) as [B F]. split; [exact B|]. exact (positive_insertAll k [v] t x inc P F).
    - destruct (getInsertIdx R t k i (length vs)) as [[x inc]|] eqn:E; [|auto].
      assert (G : between R (map idx (select R t k)) (Z.to_nat i) (steps R x inc (length vs)) /\ Forall (fun x => (0 < x)%Q) (steps R x inc (length vs))).
      { destruct vs as [|v [|v' vs]].
        - cbn. split; [|constructor]. split; [|constructor]. cbn. rewrite firstn_skipn. apply (K4 k).
        - apply (insert_between t L k i 1 x inc K P Hv E). now left.
        - apply (insert_between t L k i _ x inc K P Hv E). right. destruct Hs as [Hs|Hs]; [cbn in Hs; lia|exact Hs]. }
      destruct G as [B F]. split; [exact B|]. now apply positive_insertAll.
    - destruct (getInsertIdx R t k (if d >? s then d + 1 else d) 1) as [[x inc]|] eqn:E; [|auto].
      assert (Hi : 0 <= (if d >? s then d + 1 else d)) by (destruct (d >? s); lia).
      destruct (insert_between t L k _ 1 x inc K P Hi E (or_introl eq_refl)) as [B F]. split.
      + assert (Lz : zlen (map idx (select R t k)) = zlen (L k)) by (unfold zlen; rewrite map_length, El; reflexivity).
        apply between_move; [now rewrite Lz|now rewrite Lz|]. exact B.
      + unfold positive in *. apply Forall_map. eapply Forall_impl; [|exact P]. intros r Hr. cbn beta. destruct (isRow R t k s r); [|exact Hr].
        cbn. now apply Forall_cons_iff in F as [F _].
    - split; [exact I|]. unfold positive in *. apply Forall_map. eapply Forall_impl; [|exact P]. intros r Hr. cbn beta. now destruct (isRow R t k i r).
  Qed.

  Theorem exact_run h : forall t L, keeps t L -> positive t -> good_history veqb (fun L o => valid_op L o /\ simple_op L o) L h ->
    keeps (srun veqb R t h) (lists_after veqb L h) /\ positive (srun veqb R t h).
  Proof.
    induction h as [|o h IH]; intros t L K P Hg; cbn in *; [auto|]. destruct Hg as [[Hv Hs] Hg].
    destruct (exact_step t L o K P Hv Hs) as [Hp P']. destruct (sstep_keeps veqb R strict_rationals t L o eq_refl K Hv Hp) as [K' _]. now apply IH.
  Qed.

  Theorem exact_results h o L :
    L = lists_after veqb (fun _ => []) h ->
    good_history veqb (fun L o => valid_op L o /\ simple_op L o) (fun _ => []) h -> valid_op L o -> simple_op L o ->
    agrees R (srun veqb R [] h) L /\ snd (sstep veqb R (srun veqb R [] h) o) = snd (list_spec veqb L o) /\
    agrees R (fst (sstep veqb R (srun veqb R [] h) o)) (fst (list_spec veqb L o)).
  Proof.
    intros -> Hg Hv Hs. destruct (exact_run h [] (fun _ => []) (keeps_empty R)) as [K P]; [constructor|exact Hg|].
    destruct (exact_step _ _ o K P Hv Hs) as [Hp _]. destruct (sstep_keeps veqb R strict_rationals _ _ o eq_refl K Hv Hp) as [K' E].
    split; [exact (k_val _ _ _ K)|]. split; [exact E|exact (k_val _ _ _ K')].
  Qed.
End Exact.

(** *** any precise number system, binary64 included *)
Theorem precise_results {V} (veqb : V -> V -> bool) N h o :
  strict N -> eqn N (minusOne N) (minusOne N) = true ->
  good_history veqb valid_op (fun _ => []) (h ++ [o]) -> precise_history N veqb [] (h ++ [o]) ->
  let t := srun veqb N [] h in let L := lists_after veqb (fun _ => []) h in
  agrees N t L /\ snd (sstep veqb N t o) = snd (list_spec veqb L o) /\ agrees N (fst (sstep veqb N t o)) (fst (list_spec veqb L o)).
Proof.
  intros HN Hm. cbv zeta. generalize (keeps_empty (V := V) N). generalize (@nil (@row V N)). generalize (fun _ : Z => @nil V).
  induction h as [|o' h IH]; intros L t K Hg Hp; cbn [app good_history precise_history srun lists_after] in *.
  - destruct Hg as [Hv _], Hp as [Hp _]. destruct (sstep_keeps veqb N HN t L o Hm K Hv Hp) as [K' E].
    split; [exact (k_val _ _ _ K)|]. split; [exact E|exact (k_val _ _ _ K')].
  - destruct Hg as [Hv Hg], Hp as [Hp Hp']. destruct (sstep_keeps veqb N HN t L o' Hm K Hv Hp) as [K' _]. now apply IH.
Qed.
