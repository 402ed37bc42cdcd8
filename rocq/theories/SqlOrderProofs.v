(** Proofs about the order of stored lists. *)
From Coq Require Import Sorted Permutation QArith SpecFloat.
From Verif Require Import Base SqlOrderModel SqlOrderSpec.
Open Scope Z_scope.

Record strict (N : number) : Prop := {
  ltn_irrefl : forall x, ltn N x x = false;
  ltn_trans : forall x y z, ltn N x y = true -> ltn N y z = true -> ltn N x z = true }.
Lemma ltn_asym N (H : strict N) x y : ltn N x y = true -> ltn N y x = false.
Proof. intros E. destruct (ltn N y x) eqn:F; [|reflexivity]. pose proof (ltn_trans N H x y x E F) as G. rewrite (ltn_irrefl N H) in G. discriminate. Qed.

Section SqlOrderProofs.
  Context {V : Type} (veqb : V -> V -> bool) (N : number) (HN : strict N).
  Notation num := (num N).
  Notation row := (@row V N).
  Notation table := (list row).
  Notation lt a b := (ltn N a b = true).
  Implicit Types (t : table).

  Definition chain (l : table) : Prop := increasing N (map (idx N) l).

  Lemma sorted_app {A} (R : A -> A -> Prop) l1 l2 :
    StronglySorted R (l1 ++ l2) <-> StronglySorted R l1 /\ StronglySorted R l2 /\ forall a b, In a l1 -> In b l2 -> R a b.
  Proof.
    induction l1 as [|x l1 IH]; cbn.
    - split; [intro H; split; [constructor|]; split; [exact H|intros a b []]|tauto].
    - split.
      + intro H. apply StronglySorted_inv in H as [H1 H2]. apply IH in H1 as (A1 & A2 & A3). rewrite Forall_app in H2. destruct H2 as [F1 F2].
        split; [constructor; auto|]. split; [exact A2|]. intros a b [<-|Ha] Hb; [|auto]. rewrite Forall_forall in F2. auto.
      + intros (A1 & A2 & A3). apply StronglySorted_inv in A1 as [A0 A1]. constructor.
        * apply IH. split; [exact A0|]. split; [exact A2|]. intros; apply A3; auto.
        * rewrite Forall_app. split; [exact A1|]. rewrite Forall_forall. intros; apply A3; auto.
  Qed.

  Lemma place_perm (x : row) l : Permutation (place N x l) (x :: l).
  Proof. induction l as [|y l IH]; cbn; [reflexivity|]. destruct (before N x y); [reflexivity|]. rewrite IH. apply perm_swap. Qed.
  Lemma sort_perm (l : table) : Permutation (sort N l) l.
  Proof. induction l as [|x l IH]; cbn; [reflexivity|]. rewrite place_perm. now constructor. Qed.

  Lemma before_lt (x y : row) : lt (idx N x) (idx N y) -> before N x y = true.
  Proof. intro H. unfold before. now rewrite H. Qed.
  Lemma before_gt (x y : row) : lt (idx N y) (idx N x) -> before N x y = false.
  Proof. intro H. unfold before. rewrite H, (ltn_asym N HN _ _ H). reflexivity. Qed.

  Lemma place_mid (x : row) l1 l2 : (forall y, In y l1 -> lt (idx N y) (idx N x)) -> (forall y, In y l2 -> lt (idx N x) (idx N y)) ->
    place N x (l1 ++ l2) = l1 ++ x :: l2.
  Proof.
    intros H1 H2. induction l1 as [|y l1 IH]; cbn.
    - destruct l2 as [|z l2]; [reflexivity|]. cbn. rewrite before_lt; [reflexivity|]. apply H2. now left.
    - rewrite before_gt by (apply H1; now left). rewrite IH; [reflexivity|]. intros; apply H1; now right.
  Qed.

  Lemma chain_app l1 l2 : chain (l1 ++ l2) <-> chain l1 /\ chain l2 /\ forall a b, In a l1 -> In b l2 -> lt (idx N a) (idx N b).
  Proof.
    unfold chain, increasing. rewrite map_app, sorted_app. split; intros (A & B & C); split; auto; split; auto; intros a b Ha Hb.
    - apply C; now apply in_map.
    - apply in_map_iff in Ha as (a' & <- & Ha). apply in_map_iff in Hb as (b' & <- & Hb). auto.
  Qed.
  Lemma chain_cons x l : chain (x :: l) <-> chain l /\ forall b, In b l -> lt (idx N x) (idx N b).
  Proof.
    change (x :: l) with ([x] ++ l). rewrite chain_app. split.
    - intros (_ & A & B). split; [exact A|]. intros b Hb. apply B; [now left|exact Hb].
    - intros (A & B). split; [repeat constructor|]. split; [exact A|]. intros a b [<-|[]] Hb. auto.
  Qed.
  Lemma chain_mid l1 x l2 : chain (l1 ++ x :: l2) ->
    (forall y, In y l1 -> lt (idx N y) (idx N x)) /\ (forall y, In y l2 -> lt (idx N x) (idx N y)) /\ chain (l1 ++ l2).
  Proof.
    intro H. apply chain_app in H as (A & B & C). apply chain_cons in B as (B1 & B2). split; [|split].
    - intros y Hy. apply C; [exact Hy|now left].
    - exact B2.
    - apply chain_app. split; [exact A|]. split; [exact B1|]. intros a b Ha Hb. apply C; [exact Ha|now right].
  Qed.

  (** rows listed in increasing order are what sorting gives *)
  Lemma sort_chain (l : table) : forall c, Permutation l c -> chain c -> sort N l = c.
  Proof.
    induction l as [|x l IH]; intros c P H; cbn.
    - apply Permutation_nil in P. now subst.
    - assert (Hx : In x c) by (apply (Permutation_in x P); now left).
      apply in_split in Hx as (c1 & c2 & ->). apply Permutation_cons_app_inv in P.
      apply chain_mid in H as (H1 & H2 & H3). rewrite (IH (c1 ++ c2) P H3). now apply place_mid.
  Qed.

  Definition ofKey (k : Z) t : table := filter (fun r => key N r =? k) t.
  Lemma select_perm t k : Permutation (select N t k) (ofKey k t).
  Proof. apply sort_perm. Qed.
  Lemma select_chain t k c : Permutation (ofKey k t) c -> chain c -> select N t k = c.
  Proof. apply sort_chain. Qed.
  Lemma select_in t k r : In r (select N t k) -> In r t /\ key N r = k.
  Proof. intro H. apply (Permutation_in r (select_perm t k)) in H. apply filter_In in H as [H E]. split; [exact H|lia]. Qed.

  (** the state represents the lists *)
  Record keeps (t : table) (L : Z -> list V) : Prop := {
    k_rid : NoDup (map (rid N) t);
    k_pos : Forall (fun r => 1 <= rid N r) t;
    k_idx : Forall (fun r => eqn N (idx N r) (minusOne N) = false) t;
    k_chain : forall k, chain (select N t k);
    k_val : agrees N t L }.

  Lemma max_ge t r : In r t -> rid N r <= fold_right (fun r m => Z.max (rid N r) m) 0 t.
  Proof. induction t as [|x t IH]; cbn; [intros []|]. intros [<-|H]; [lia|]. specialize (IH H). lia. Qed.
  Lemma max_nonneg t : 0 <= fold_right (fun r m => Z.max (rid N r) m) 0 t.
  Proof. induction t; cbn; lia. Qed.

  (** *** inserting *)
  Lemma ofKey_insert_other t k i v k' : k' <> k -> ofKey k' (insert N t k i v) = ofKey k' t.
  Proof. intro H. unfold ofKey, insert. rewrite filter_app. cbn. replace (k =? k') with false by lia. now rewrite app_nil_r. Qed.

  Lemma keeps_insert t L k i v l1 l2 :
    keeps t L -> eqn N i (minusOne N) = false -> select N t k = l1 ++ l2 ->
    (forall y, In y l1 -> lt (idx N y) i) -> (forall y, In y l2 -> lt i (idx N y)) ->
    keeps (insert N t k i v) (put L k (map (val N) l1 ++ v :: map (val N) l2)) /\
    exists r, idx N r = i /\ select N (insert N t k i v) k = l1 ++ r :: l2.
  Proof.
    intros [K1 K2 K3 K4 K5] Hi Es H1 H2.
    set (r := mkRow N (fold_right (fun r m => Z.max (rid N r) m) 0 t + 1) k i v).
    assert (Sk : select N (insert N t k i v) k = l1 ++ r :: l2).
    { apply select_chain.
      - unfold ofKey, insert. rewrite filter_app. cbn [filter key]. rewrite Z.eqb_refl. fold r. fold (ofKey k t).
        rewrite <- (select_perm t k), Es. rewrite <- app_assoc. apply Permutation_app_head. apply Permutation_app_comm.
      - pose proof (K4 k) as C. rewrite Es in C. apply chain_app in C as (C1 & C2 & C3). apply chain_app. split; [exact C1|]. split.
        + apply chain_cons. split; [exact C2|]. intros b Hb. now apply H2.
        + intros a b Ha [<-|Hb]; [now apply H1|auto]. }
    split; [|exists r; split; [reflexivity|exact Sk]].
    assert (So : forall k', k' <> k -> select N (insert N t k i v) k' = select N t k').
    { intros k' Hk. unfold select. fold (ofKey k' t). fold (ofKey k' (insert N t k i v)). now rewrite ofKey_insert_other. }
    constructor.
    - unfold insert. rewrite map_app. cbn. apply NoDup_app_iff. split; [exact K1|]. split; [repeat constructor; intros []|].
      intros z Hz [<-|[]]. apply in_map_iff in Hz as (x & E & Hx). pose proof (max_ge t x Hx). lia.
    - unfold insert. apply Forall_app. split; [exact K2|]. repeat constructor. cbn. pose proof (max_nonneg t). lia.
    - unfold insert. apply Forall_app. split; [exact K3|]. repeat constructor. exact Hi.
    - intros k'. destruct (Z.eq_dec k' k) as [->|Hk]; [|rewrite So by exact Hk; apply K4].
      rewrite Sk. pose proof (K4 k) as C. rewrite Es in C. apply chain_app in C as (C1 & C2 & C3). apply chain_app. split; [exact C1|]. split.
      + apply chain_cons. split; [exact C2|]. intros b Hb. now apply H2.
      + intros a b Ha [<-|Hb]; [now apply H1|auto].
    - intros k'. unfold put. destruct (Z.eqb_spec k' k) as [->|Hk].
      + rewrite Sk, map_app. reflexivity.
      + rewrite So by exact Hk. apply K5.
  Qed.

  Lemma keeps_ext t L L' : keeps t L -> (forall k, L k = L' k) -> keeps t L'.
  Proof. intros [A B C D E] H. constructor; auto. intro k. rewrite <- H. apply E. Qed.

  Lemma keeps_insertAll k vs : forall t L x inc l1 l2,
    keeps t L -> select N t k = l1 ++ l2 -> Forall (fun x => eqn N x (minusOne N) = false) (steps N x inc (length vs)) ->
    increasing N (map (idx N) l1 ++ steps N x inc (length vs) ++ map (idx N) l2) ->
    keeps (insertAll N t k x inc vs) (put L k (map (val N) l1 ++ vs ++ map (val N) l2)).
  Proof.
    induction vs as [|v vs IH]; intros t L x inc l1 l2 K Es F S; cbn [insertAll steps length app] in *.
    - apply (keeps_ext t L); [exact K|]. intro k'. unfold put. destruct (Z.eqb_spec k' k) as [->|]; [|reflexivity].
      rewrite <- (k_val t L K k), Es, map_app. reflexivity.
    - apply Forall_cons_iff in F as [F1 F2]. apply sorted_app in S as (S1 & S2 & S3). pose proof S2 as S2'. apply StronglySorted_inv in S2 as [S2 S4].
      rewrite Forall_forall in S4.
      destruct (keeps_insert t L k x v l1 l2 K F1 Es) as (K' & r & Er & Es').
      { intros y Hy. apply S3; [now apply in_map|now left]. }
      { intros y Hy. apply S4. apply in_app_iff. right. now apply in_map. }
      assert (Es2 : select N (insert N t k x v) k = (l1 ++ [r]) ++ l2) by now rewrite <- app_assoc.
      assert (Rv : val N r = v).
      { pose proof (k_val _ _ K' k) as Q. rewrite Es', map_app in Q. unfold put in Q. rewrite Z.eqb_refl in Q. cbn in Q.
        apply app_inv_head in Q. now injection Q. }
      pose proof (IH _ _ (addn N x inc) inc (l1 ++ [r]) l2 K' Es2 F2) as G.
      apply (keeps_ext _ (put (put L k (map (val N) l1 ++ v :: map (val N) l2)) k (map (val N) (l1 ++ [r]) ++ vs ++ map (val N) l2))).
      + apply G. rewrite map_app, <- app_assoc. cbn [map app]. rewrite Er. apply sorted_app. split; [exact S1|]. split; [exact S2'|exact S3].
      + intro k'. unfold put. destruct (Z.eqb_spec k' k); [|reflexivity]. rewrite map_app, <- app_assoc. cbn. now rewrite Rv.
  Qed.

  (** *** rows at a position *)
  Lemma limit_one (c : table) i : limitOffset N 1 (Z.of_nat i) c = match nth_error c i with Some r => [r] | None => [] end.
  Proof.
    unfold limitOffset. rewrite Nat2Z.id. revert i. induction c as [|x c IH]; intros [|i]; cbn; auto. apply IH.
  Qed.
  Lemma valueAt_nth t k i : 0 <= i -> valueAt N t k i = zget (map (val N) (select N t k)) i.
  Proof.
    intros Hi. unfold valueAt. replace i with (Z.of_nat (Z.to_nat i)) by lia. rewrite limit_one.
    unfold zget. replace (Z.of_nat (Z.to_nat i) <? 0) with false by lia. rewrite Nat2Z.id, nth_error_map.
    now destruct (nth_error (select N t k) (Z.to_nat i)).
  Qed.

  Lemma rid_inj t a b : NoDup (map (rid N) t) -> In a t -> In b t -> rid N a = rid N b -> a = b.
  Proof.
    induction t as [|x t IH]; cbn; [intros _ []|]. intros H Ha Hb E. apply NoDup_cons_iff in H as [Hx H].
    destruct Ha as [->|Ha], Hb as [->|Hb]; auto.
    - exfalso. apply Hx. rewrite E. now apply in_map.
    - exfalso. apply Hx. rewrite <- E. now apply in_map.
  Qed.

  Lemma isRow_none t k i r : 0 <= i -> nth_error (select N t k) (Z.to_nat i) = None -> isRow N t k i r = false.
  Proof.
    intros Hi E. unfold isRow. replace i with (Z.of_nat (Z.to_nat i)) by lia. rewrite limit_one, E. reflexivity.
  Qed.
  Lemma isRow_some t k i r0 r : 0 <= i -> nth_error (select N t k) (Z.to_nat i) = Some r0 -> isRow N t k i r = (rid N r0 =? rid N r).
  Proof.
    intros Hi E. unfold isRow. replace i with (Z.of_nat (Z.to_nat i)) by lia. rewrite limit_one, E. cbn. apply orb_false_r.
  Qed.

  Lemma nth_cut {A} (l : list A) i x : nth_error l i = Some x -> l = firstn i l ++ x :: skipn (S i) l.
  Proof. revert i. induction l as [|y l IH]; intros [|i] H; cbn in *; try discriminate; [now injection H as ->|]. f_equal. now apply IH. Qed.

  Lemma filter_id {A} (p : A -> bool) l : (forall x, In x l -> p x = true) -> filter p l = l.
  Proof. induction l as [|x l IH]; intro H; cbn; [reflexivity|]. rewrite H by now left. f_equal. apply IH. intros; apply H; now right. Qed.
  Lemma filter_filter_comm {A} (p q : A -> bool) l : filter p (filter q l) = filter q (filter p l).
  Proof. induction l as [|x l IH]; cbn; [reflexivity|]. destruct (p x) eqn:P, (q x) eqn:Q; cbn; rewrite ?P, ?Q, ?IH; reflexivity. Qed.
  Lemma Permutation_filter {A} (p : A -> bool) l l' : Permutation l l' -> Permutation (filter p l) (filter p l').
  Proof.
    induction 1 as [|x l l' _ IH|x y l|l1 l2 l3 _ IH1 _ IH2]; cbn; [reflexivity| | |now rewrite IH1].
    - destruct (p x); [now constructor|exact IH].
    - destruct (p x), (p y); try reflexivity. constructor.
  Qed.

  (** rows of other chains or other positions are not touched *)
  Lemma row_apart t k i r0 : NoDup (map (rid N) t) -> nth_error (select N t k) i = Some r0 ->
    (forall r, In r (firstn i (select N t k)) \/ In r (skipn (S i) (select N t k)) -> rid N r0 <> rid N r) /\
    (forall r k', k' <> k -> In r (ofKey k' t) -> rid N r0 <> rid N r).
  Proof.
    intros ND E. pose proof (nth_cut _ _ _ E) as Cut.
    assert (ND' : NoDup (map (rid N) (select N t k))).
    { apply (Permutation_NoDup (l := map (rid N) (ofKey k t))); [apply Permutation_map; symmetry; apply select_perm|].
      clear -ND. induction t as [|x t IH]; cbn in *; [constructor|]. apply NoDup_cons_iff in ND as [Nx ND]. destruct (key N x =? k); cbn; auto.
      apply NoDup_cons_iff. split; [|auto]. intro H. apply Nx. apply in_map_iff in H as (y & <- & Hy). apply in_map. unfold ofKey in Hy. apply filter_In in Hy. tauto. }
    assert (In0 : In r0 t /\ key N r0 = k) by (apply select_in; eapply nth_error_In; eauto).
    split.
    - intros r Hr Q. rewrite Cut, map_app in ND'. cbn in ND'. apply NoDup_remove_2 in ND'. apply ND'. rewrite Q, <- map_app. apply in_map. apply in_app_iff. exact Hr.
    - intros r k' Hk Hr Q. apply filter_In in Hr as [Hr Er]. assert (r0 = r) by (apply (rid_inj t); tauto). subst r. lia.
  Qed.

  (** *** removing rows *)
  Lemma select_filter_other t k p : (forall r, In r (ofKey k t) -> p r = true) -> select N (filter p t) k = select N t k.
  Proof. intros H. unfold select. f_equal. rewrite filter_filter_comm. now apply filter_id. Qed.
  Lemma keeps_filter t L p L' : keeps t L -> (forall k, exists c, Permutation (filter p (select N t k)) c /\ chain c /\ map (val N) c = L' k) -> keeps (filter p t) L'.
  Proof.
    intros [K1 K2 K3 K4 K5] H.
    assert (Sel : forall k, chain (select N (filter p t) k) /\ map (val N) (select N (filter p t) k) = L' k).
    { intros k. destruct (H k) as (c & P & C & E). replace (select N (filter p t) k) with c; [auto|]. symmetry. apply select_chain; [|exact C].
      rewrite <- P. unfold ofKey. rewrite filter_filter_comm. apply Permutation_filter. symmetry. apply select_perm. }
    constructor.
    - clear -K1. induction t as [|x t IH]; cbn in *; [constructor|]. apply NoDup_cons_iff in K1 as [Nx ND]. destruct (p x); cbn; auto.
      apply NoDup_cons_iff. split; [|auto]. intro H. apply Nx. apply in_map_iff in H as (y & <- & Hy). apply in_map. apply filter_In in Hy. tauto.
    - rewrite Forall_forall in *. intros x Hx. apply filter_In in Hx. now apply K2.
    - rewrite Forall_forall in *. intros x Hx. apply filter_In in Hx. now apply K3.
    - intros k. apply Sel.
    - intros k. apply Sel.
  Qed.

  Lemma map_firstn {A B} (f : A -> B) i l : map f (firstn i l) = firstn i (map f l).
  Proof. revert i. induction l as [|x l IH]; intros [|i]; cbn; f_equal; auto. Qed.
  Lemma map_skipn {A B} (f : A -> B) i l : map f (skipn i l) = skipn i (map f l).
  Proof. revert i. induction l as [|x l IH]; intros [|i]; cbn; f_equal; auto. Qed.

  Lemma keeps_remove t L k i : keeps t L -> 0 <= i ->
    keeps (filter (fun r => negb (isRow N t k i r)) t) (put L k (remove_at (L k) i)).
  Proof.
    intros K Hi. pose proof K as [K1 K2 K3 K4 K5]. apply (keeps_filter t L); [exact K|]. intros k'.
    destruct (nth_error (select N t k) (Z.to_nat i)) as [r0|] eqn:E.
    - destruct (row_apart t k _ r0 K1 E) as [A B]. unfold put. destruct (Z.eqb_spec k' k) as [->|Hk].
      + exists (firstn (Z.to_nat i) (select N t k) ++ skipn (S (Z.to_nat i)) (select N t k)). split; [|split].
        * rewrite (nth_cut _ _ _ E) at 1. rewrite filter_app. cbn [filter]. rewrite (isRow_some _ _ _ _ _ Hi E), Z.eqb_refl. cbn [negb].
          rewrite !filter_id; [reflexivity| |]; intros r Hr; rewrite (isRow_some _ _ _ _ _ Hi E); assert (rid N r0 <> rid N r) by auto; lia.
        * pose proof (K4 k) as C. rewrite (nth_cut _ _ _ E) in C. now apply chain_mid in C.
        * rewrite map_app, map_firstn, map_skipn. unfold remove_at. now rewrite <- (K5 k).
      + exists (select N t k'). split; [|split; [apply K4|apply K5]].
        rewrite filter_id; [reflexivity|]. intros r Hr. rewrite (isRow_some _ _ _ _ _ Hi E).
        assert (rid N r0 <> rid N r); [|lia]. apply (B r k' Hk). eapply Permutation_in; [apply select_perm|exact Hr].
    - exists (select N t k'). split; [|split; [apply K4|]].
      + rewrite filter_id; [reflexivity|]. intros r Hr. now rewrite (isRow_none _ _ _ _ Hi E).
      + unfold put. destruct (Z.eqb_spec k' k) as [->|Hk]; [|apply K5]. rewrite (K5 k). unfold remove_at.
        apply nth_error_None in E. assert (El : length (select N t k) = length (L k)) by (rewrite <- (K5 k); symmetry; apply map_length).
        rewrite firstn_all2 by lia. rewrite skipn_all2 by lia. now rewrite app_nil_r.
  Qed.

  Lemma keeps_clear t L k : keeps t L -> keeps (filter (fun r => negb (key N r =? k)) t) (put L k []).
  Proof.
    intros K. pose proof K as [K1 K2 K3 K4 K5]. apply (keeps_filter t L); [exact K|]. intros k'. unfold put. destruct (Z.eqb_spec k' k) as [->|Hk].
    - exists []. split; [|split; [constructor|reflexivity]].
      replace (filter _ (select N t k)) with (@nil row); [constructor|]. symmetry.
      assert (H : forall r, In r (select N t k) -> key N r = k) by (intros r Hr; now apply select_in in Hr).
      induction (select N t k) as [|x l IH]; cbn; [reflexivity|]. rewrite (H x (or_introl eq_refl)), Z.eqb_refl. cbn. apply IH. intros; apply H; now right.
    - exists (select N t k'). split; [|split; [apply K4|apply K5]]. rewrite filter_id; [reflexivity|].
      intros r Hr. apply select_in in Hr. lia.
  Qed.

  (** *** updating rows *)
  Lemma filter_map_key t f k : (forall r, key N (f r) = key N r) -> ofKey k (map f t) = map f (ofKey k t).
  Proof. intro H. unfold ofKey. induction t as [|x t IH]; cbn; [reflexivity|]. rewrite H. destruct (key N x =? k); cbn; now rewrite IH. Qed.
  Lemma keeps_map t L f L' : keeps t L -> (forall r, key N (f r) = key N r) -> (forall r, rid N (f r) = rid N r) ->
    (forall r, In r t -> eqn N (idx N (f r)) (minusOne N) = false) ->
    (forall k, exists c, Permutation (map f (select N t k)) c /\ chain c /\ map (val N) c = L' k) -> keeps (map f t) L'.
  Proof.
    intros [K1 K2 K3 K4 K5] Hk Hr Hi H.
    assert (Sel : forall k, chain (select N (map f t) k) /\ map (val N) (select N (map f t) k) = L' k).
    { intros k. destruct (H k) as (c & P & C & E). replace (select N (map f t) k) with c; [auto|]. symmetry. apply select_chain; [|exact C].
      rewrite <- P, filter_map_key by exact Hk. apply Permutation_map. symmetry. apply select_perm. }
    constructor.
    - rewrite map_map. erewrite map_ext; [exact K1|]. exact Hr.
    - rewrite Forall_forall in *. intros x Hx. apply in_map_iff in Hx as (y & <- & Hy). rewrite Hr. now apply K2.
    - rewrite Forall_forall in *. intros x Hx. apply in_map_iff in Hx as (y & <- & Hy). auto.
    - intros k. apply Sel.
    - intros k. apply Sel.
  Qed.

  Lemma map_same {A} (f : A -> A) l : (forall x, In x l -> f x = x) -> map f l = l.
  Proof. induction l as [|x l IH]; intro H; cbn; [reflexivity|]. rewrite H by now left. f_equal. apply IH. intros; apply H; now right. Qed.

  Lemma keeps_update t L k i (g : row -> row) L' r0 :
    keeps t L -> 0 <= i -> nth_error (select N t k) (Z.to_nat i) = Some r0 ->
    (forall r, key N (g r) = key N r) -> (forall r, rid N (g r) = rid N r) ->
    (forall r, eqn N (idx N r) (minusOne N) = false -> eqn N (idx N (g r)) (minusOne N) = false) ->
    (forall k', k' <> k -> L' k' = L k') ->
    (exists c, Permutation (firstn (Z.to_nat i) (select N t k) ++ g r0 :: skipn (S (Z.to_nat i)) (select N t k)) c /\ chain c /\ map (val N) c = L' k) ->
    keeps (map (fun r => if isRow N t k i r then g r else r) t) L'.
  Proof.
    intros K Hi E Hk Hr Hx HL Hc. pose proof K as [K1 K2 K3 K4 K5]. destruct (row_apart t k _ r0 K1 E) as [A B].
    apply (keeps_map t L); [exact K| | | |].
    - intros r. destruct (isRow N t k i r); auto.
    - intros r. destruct (isRow N t k i r); auto.
    - intros r Hin. rewrite Forall_forall in K3. destruct (isRow N t k i r); auto.
    - intros k'. destruct (Z.eq_dec k' k) as [->|Hk'].
      + destruct Hc as (c & P & C & Ev). exists c. split; [|auto]. rewrite <- P. rewrite (nth_cut _ _ _ E) at 1. rewrite map_app. cbn [map].
        rewrite (isRow_some _ _ _ _ _ Hi E), Z.eqb_refl.
        rewrite !map_same; [reflexivity| |]; intros r Hin; rewrite (isRow_some _ _ _ _ _ Hi E); assert (rid N r0 <> rid N r) by auto;
          replace (rid N r0 =? rid N r) with false by lia; reflexivity.
      + exists (select N t k'). split; [|split; [apply K4|rewrite HL by exact Hk'; apply K5]].
        rewrite map_same; [reflexivity|]. intros r Hin. rewrite (isRow_some _ _ _ _ _ Hi E).
        assert (rid N r0 <> rid N r) by (apply (B r k' Hk'); eapply Permutation_in; [apply select_perm|exact Hin]).
        replace (rid N r0 =? rid N r) with false by lia. reflexivity.
  Qed.

  Lemma keeps_set t L k i v : keeps t L -> 0 <= i ->
    keeps (map (fun r => if isRow N t k i r then mkRow N (rid N r) (key N r) (idx N r) v else r) t)
          (match zset (L k) i v with Some l => put L k l | None => L end).
  Proof.
    intros K Hi. pose proof K as [K1 K2 K3 K4 K5].
    assert (El : length (select N t k) = length (L k)) by (rewrite <- (K5 k); symmetry; apply map_length).
    destruct (nth_error (select N t k) (Z.to_nat i)) as [r0|] eqn:E.
    - assert (Hlt : (Z.to_nat i < length (L k))%nat) by (rewrite <- El; apply nth_error_Some; congruence).
      unfold zset, zlen. replace ((0 <=? i) && (i <? Z.of_nat (length (L k)))) with true by lia.
      apply (keeps_update t L k i (fun r => mkRow N (rid N r) (key N r) (idx N r) v) _ r0); auto.
      + intros k' Hk. unfold put. now replace (k' =? k) with false by lia.
      + eexists. split; [reflexivity|]. split.
        * pose proof (K4 k) as C. rewrite (nth_cut _ _ _ E) in C. unfold chain in *. rewrite map_app in *. exact C.
        * unfold put. rewrite Z.eqb_refl, map_app. cbn [map val]. rewrite map_firstn, map_skipn, (K5 k). do 3 f_equal. lia.
    - assert (Hge : (length (L k) <= Z.to_nat i)%nat) by (rewrite <- El; now apply nth_error_None).
      unfold zset, zlen. replace ((0 <=? i) && (i <? Z.of_nat (length (L k)))) with false by lia.
      rewrite map_same; [exact K|]. intros r Hr. now rewrite (isRow_none _ _ _ _ Hi E).
  Qed.

  Lemma keeps_move t L k s d x : keeps t L -> 0 <= s < zlen (L k) -> 0 <= d ->
    between N (remove_at (map (idx N) (select N t k)) s) (Z.to_nat d) [x] ->
    keeps (map (fun r => if isRow N t k s r then mkRow N (rid N r) (key N r) x (val N r) else r) t)
          (fst (list_spec veqb L (SMove k s d))).
  Proof.
    intros K Hs Hd [Hb Hx]. pose proof K as [K1 K2 K3 K4 K5].
    assert (El : length (select N t k) = length (L k)) by (rewrite <- (K5 k); symmetry; apply map_length).
    destruct (nth_error (select N t k) (Z.to_nat s)) as [r0|] eqn:E.
    2:{ apply nth_error_None in E. unfold zlen in Hs. lia. }
    set (c := select N t k) in *. set (rest := firstn (Z.to_nat s) c ++ skipn (S (Z.to_nat s)) c).
    assert (Erest : map (idx N) rest = remove_at (map (idx N) c) s).
    { unfold rest, remove_at. now rewrite map_app, map_firstn, map_skipn. }
    assert (Erv : map (val N) rest = remove_at (L k) s).
    { unfold rest, remove_at. pose proof (K5 k) as E5. fold c in E5. now rewrite map_app, map_firstn, map_skipn, E5. }
    cbn [list_spec fst]. assert (Eg : zget (L k) s = Some (val N r0)).
    { unfold zget. replace (s <? 0) with false by lia. rewrite <- (K5 k), nth_error_map. fold c. now rewrite E. }
    rewrite Eg. apply (keeps_update t L k s (fun r => mkRow N (rid N r) (key N r) x (val N r)) _ r0); auto; [lia| | |].
    - intros r _. inversion Hx; auto.
    - intros k' Hk. cbn. unfold put. now replace (k' =? k) with false by lia.
    - set (r1 := mkRow N (rid N r0) (key N r0) x (val N r0)). exists (firstn (Z.to_nat d) rest ++ r1 :: skipn (Z.to_nat d) rest). split; [|split].
      + transitivity (r1 :: rest); [symmetry; apply Permutation_middle|]. rewrite <- (firstn_skipn (Z.to_nat d) rest) at 1. apply Permutation_middle.
      + unfold chain. rewrite map_app. cbn [map idx]. rewrite map_firstn, map_skipn, Erest. exact Hb.
      + cbn. unfold put. rewrite Z.eqb_refl, map_app. cbn [map val]. rewrite map_firstn, map_skipn, Erv. reflexivity.
  Qed.

  (** *** queries *)
  Lemma chain_count t L k c1 r c2 : keeps t L -> select N t k = c1 ++ r :: c2 ->
    zlen (filter (fun x => (key N x =? k) && ltn N (idx N x) (idx N r)) t) = zlen c1.
  Proof.
    intros K E. unfold zlen. f_equal.
    assert (P : Permutation (filter (fun x => (key N x =? k) && ltn N (idx N x) (idx N r)) t) (filter (fun x => ltn N (idx N x) (idx N r)) (select N t k))).
    { rewrite (Permutation_filter _ _ _ (select_perm t k)). unfold ofKey. clear. induction t as [|x t IH]; cbn; [reflexivity|]. destruct (key N x =? k); cbn; [|exact IH].
      destruct (ltn N (idx N x) (idx N r)); auto. }
    rewrite (Permutation_length P), E, filter_app. cbn [filter]. rewrite (ltn_irrefl N HN). pose proof (k_chain t L K k) as C. rewrite E in C.
    apply chain_mid in C as (C1 & C2 & _). rewrite filter_id by (intros; now apply C1).
    replace (filter _ c2) with (@nil row); [rewrite app_nil_r; reflexivity|]. symmetry.
    clear -C2 HN. induction c2 as [|y l IH]; cbn; [reflexivity|]. rewrite (ltn_asym N HN _ _ (C2 y (or_introl eq_refl))). apply IH. intros; apply C2; now right.
  Qed.

  Lemma first_index_split l v : forall i,
    match filter (fun x => veqb x v) l with
    | [] => first_index veqb l v i = -1
    | _ => exists l1 y l2, l = l1 ++ y :: l2 /\ veqb y v = true /\ filter (fun x => veqb x v) l1 = [] /\ first_index veqb l v i = i + zlen l1
    end.
  Proof.
    induction l as [|x l IH]; intros i; cbn; [reflexivity|]. destruct (veqb x v) eqn:E.
    - exists [], x, l. split; [reflexivity|]. split; [exact E|]. split; [reflexivity|]. change (zlen (@nil V)) with 0. lia.
    - specialize (IH (i + 1)). destruct (filter (fun x => veqb x v) l); [exact IH|]. destruct IH as (l1 & y & l2 & -> & H1 & H2 & H3).
      exists (x :: l1), y, l2. split; [reflexivity|]. split; [exact H1|]. split; [cbn; now rewrite E|]. rewrite H3, zlen_cons. lia.
  Qed.
  Lemma last_index_split l v : forall i, 0 <= i ->
    match rev (filter (fun x => veqb x v) l) with
    | [] => last_index veqb l v i = -1
    | _ => exists l1 y l2, l = l1 ++ y :: l2 /\ veqb y v = true /\ filter (fun x => veqb x v) l2 = [] /\ last_index veqb l v i = i + zlen l1
    end.
  Proof.
    induction l as [|x l IH]; intros i Hi; cbn; [reflexivity|]. assert (Hi1 : 0 <= i + 1) by lia. specialize (IH (i + 1) Hi1).
    destruct (rev (filter (fun x => veqb x v) l)) as [|z zs] eqn:R.
    - assert (F : filter (fun x => veqb x v) l = []) by (rewrite <- (rev_involutive (filter _ l)), R; reflexivity).
      rewrite IH. cbn [Z.eqb]. change (-1 =? -1) with true. cbv iota. rewrite F. destruct (veqb x v) eqn:E; cbn; [|reflexivity].
      exists [], x, l. split; [reflexivity|]. split; [exact E|]. split; [exact F|]. change (zlen (@nil V)) with 0. lia.
    - destruct IH as (l1 & y & l2 & -> & H1 & H2 & H3).
      assert (Ne : last_index veqb (l1 ++ y :: l2) v (i + 1) =? -1 = false) by (rewrite H3; pose proof (zlen_nonneg l1); lia).
      rewrite Ne.
      assert (G : exists m y0 n, x :: l1 ++ y :: l2 = m ++ y0 :: n /\ veqb y0 v = true /\ filter (fun x => veqb x v) n = [] /\ last_index veqb (l1 ++ y :: l2) v (i + 1) = i + zlen m).
      { exists (x :: l1), y, l2. split; [reflexivity|]. split; [exact H1|]. split; [exact H2|]. rewrite H3, zlen_cons. lia. }
      destruct (veqb x v); cbn [rev]; rewrite R; cbn; exact G.
  Qed.

  Lemma split_map {A B} (f : A -> B) l m1 y m2 : map f l = m1 ++ y :: m2 -> exists l1 x l2, l = l1 ++ x :: l2 /\ map f l1 = m1 /\ f x = y /\ map f l2 = m2.
  Proof.
    revert m1. induction l as [|x l IH]; intros [|z m1] H; cbn in *; try discriminate.
    - injection H as <- <-. exists [], x, l. auto.
    - injection H as <- H. destruct (IH m1 H) as (l1 & x' & l2 & -> & <- & <- & <-). exists (x :: l1), x', l2. auto.
  Qed.
  Lemma filter_map_val (c : table) v : map (val N) (filter (fun r => veqb (val N r) v) c) = filter (fun x => veqb x v) (map (val N) c).
  Proof. induction c as [|x c IH]; cbn; [reflexivity|]. destruct (veqb (val N x) v); cbn; now rewrite IH. Qed.

  Lemma eqn_idx t L k r : keeps t L -> In r (select N t k) -> eqn N (idx N r) (minusOne N) = false.
  Proof. intros K H. apply select_in in H as [H _]. pose proof (k_idx t L K) as F. rewrite Forall_forall in F. auto. Qed.

  Lemma indexOf_ok t L k v : keeps t L -> eqn N (minusOne N) (minusOne N) = true ->
    indexOf N t k (head (filter (fun r => veqb (val N r) v) (select N t k))) = first_index veqb (L k) v 0 /\
    indexOf N t k (head (rev (filter (fun r => veqb (val N r) v) (select N t k)))) = last_index veqb (L k) v 0.
  Proof.
    intros K Hm. pose proof (k_val t L K k) as E. rewrite <- E. clear E. split.
    - pose proof (first_index_split (map (val N) (select N t k)) v 0) as H. rewrite <- filter_map_val in H.
      destruct (filter (fun r => veqb (val N r) v) (select N t k)) as [|r rs] eqn:F; cbn in H |- *.
      + rewrite H. unfold indexOf. now rewrite Hm.
      + destruct H as (m1 & y & m2 & E & H1 & H2 & ->). apply split_map in E as (l1 & r' & l2 & E & <- & <- & <-).
        assert (r' = r).
        { rewrite E, filter_app in F. cbn [filter] in F. rewrite H1 in F. rewrite <- filter_map_val in H2. apply map_eq_nil in H2. rewrite H2 in F. cbn in F. now injection F. }
        subst r'. unfold indexOf. rewrite (eqn_idx t L k r K) by (rewrite E; apply in_elt).
        rewrite (chain_count t L k l1 r l2 K E). unfold zlen. rewrite map_length. lia.
    - pose proof (last_index_split (map (val N) (select N t k)) v 0 ltac:(lia)) as H. rewrite <- filter_map_val, <- map_rev in H.
      destruct (rev (filter (fun r => veqb (val N r) v) (select N t k))) as [|r rs] eqn:F; cbn in H |- *.
      + rewrite H. unfold indexOf. now rewrite Hm.
      + destruct H as (m1 & y & m2 & E & H1 & H2 & ->). apply split_map in E as (l1 & r' & l2 & E & <- & <- & <-).
        assert (r' = r).
        { rewrite E, filter_app in F. cbn [filter] in F. rewrite H1 in F. rewrite <- filter_map_val in H2. apply map_eq_nil in H2. rewrite H2 in F.
          rewrite rev_app_distr in F. cbn in F. now injection F. }
        subst r'. unfold indexOf. rewrite (eqn_idx t L k r K) by (rewrite E; apply in_elt).
        rewrite (chain_count t L k l1 r l2 K E). unfold zlen. rewrite map_length. lia.
  Qed.

  (** *** the step *)
  Lemma getInsertIdx_none t L k i nb : keeps t L -> 0 <= i -> (getInsertIdx N t k i nb = None <-> i > zlen (L k)).
  Proof.
    intros K Hi. assert (El : length (select N t k) = length (L k)) by (rewrite <- (k_val t L K k); symmetry; apply map_length).
    unfold getInsertIdx, limitOffset, zlen. destruct (Z.eqb_spec i 0) as [->|Hn].
    - split; [|lia]. destruct (firstn 1 (skipn (Z.to_nat 0) (select N t k))); discriminate.
    - assert (Hs : length (skipn (Z.to_nat (i - 1)) (select N t k)) = (length (L k) - Z.to_nat (i - 1))%nat) by now rewrite skipn_length, El.
      destruct (skipn (Z.to_nat (i - 1)) (select N t k)) as [|a [|b l]]; cbn in Hs |- *; split; intro H; try discriminate; try reflexivity; lia.
  Qed.

  Theorem sstep_keeps t L o :
    eqn N (minusOne N) (minusOne N) = true ->
    keeps t L -> valid_op L o -> precise N t o ->
    keeps (fst (sstep veqb N t o)) (fst (list_spec veqb L o)) /\ snd (sstep veqb N t o) = snd (list_spec veqb L o).
  Proof.
    intros Hm K Hv Hp. pose proof K as [K1 K2 K3 K4 K5].
    assert (El : forall k, length (select N t k) = length (L k)) by (intros k; rewrite <- (K5 k); symmetry; apply map_length).
    assert (Ins : forall k i vs x inc, 0 <= i -> i <= zlen (L k) ->
      between N (map (idx N) (select N t k)) (Z.to_nat i) (steps N x inc (length vs)) ->
      keeps (insertAll N t k x inc vs) (put L k (insert_at (L k) i vs))).
    { intros k i vs x inc Hi Hl [Hb Hx]. unfold insert_at. rewrite <- (K5 k), <- map_firstn, <- map_skipn.
      apply keeps_insertAll; auto; [now rewrite firstn_skipn|]. now rewrite map_firstn, map_skipn. }
    destruct o as [k vs|k i v|k i vs|k i|k s d|k i v|k|k i|k|k|k v|k v|k v|k]; cbn [sstep list_spec valid_op precise fst snd] in *; try (split; [exact K|]).
    - split; [|reflexivity]. assert (Es : select N t k = []) by (apply length_zero_iff_nil; rewrite El, Hv; reflexivity).
      replace vs with (map (val N) (@nil row) ++ vs ++ map (val N) (@nil row)) at 2 by (cbn; now rewrite app_nil_r).
      destruct Hp as [Hb Hx]. apply keeps_insertAll; auto.
    - destruct (getInsertIdx N t k i 1) as [[x inc]|] eqn:E.
      + assert (Hl : i <= zlen (L k)).
        { destruct (Z_le_gt_dec i (zlen (L k))) as [|G]; [assumption|]. apply (getInsertIdx_none t L k i 1 K Hv) in G. congruence. }
        replace (i <=? zlen (L k)) with true by lia. split; [|reflexivity]. exact (Ins k i [v] x inc Hv Hl Hp).
      + apply (getInsertIdx_none t L k i 1 K Hv) in E. replace (i <=? zlen (L k)) with false by lia. auto.
    - destruct (getInsertIdx N t k i (length vs)) as [[x inc]|] eqn:E.
      + assert (Hl : i <= zlen (L k)).
        { destruct (Z_le_gt_dec i (zlen (L k))) as [|G]; [assumption|]. apply (getInsertIdx_none t L k i (length vs) K Hv) in G. congruence. }
        replace (i <=? zlen (L k)) with true by lia. split; [|reflexivity]. exact (Ins k i vs x inc Hv Hl Hp).
      + apply (getInsertIdx_none t L k i (length vs) K Hv) in E. replace (i <=? zlen (L k)) with false by lia. auto.
    - split; [now apply keeps_remove|]. rewrite valueAt_nth by exact Hv. now rewrite K5.
    - destruct Hv as [Hs Hd]. destruct (getInsertIdx N t k (if d >? s then d + 1 else d) 1) as [[x inc]|] eqn:E.
      + cbn [fst snd]. assert (Hd' : 0 <= d) by lia. split; [exact (keeps_move t L k s d x K Hs Hd' Hp)|].
        rewrite valueAt_nth by lia. rewrite K5. destruct (zget (L k) s) eqn:G; reflexivity.
      + exfalso. assert (Hi : 0 <= (if d >? s then d + 1 else d)) by (destruct (d >? s); lia).
        apply (getInsertIdx_none t L k _ 1 K Hi) in E. destruct (d >? s) eqn:F; lia.
    - split; [now apply keeps_set|]. rewrite valueAt_nth by exact Hv. now rewrite K5.
    - split; [|reflexivity]. now apply keeps_clear.
    - rewrite valueAt_nth by exact Hv. now rewrite K5.
    - f_equal. unfold zlen. f_equal. rewrite <- El. symmetry. apply Permutation_length. apply select_perm.
    - f_equal. pose proof (select_perm t k) as P. rewrite <- (K5 k). destruct (select N t k) as [|r c] eqn:E.
      + cbn. apply Permutation_nil in P. destruct (existsb (fun r => key N r =? k) t) eqn:X; [|reflexivity].
        apply existsb_exists in X as (r & Hr & Er). assert (In r (ofKey k t)) by (apply filter_In; auto). rewrite P in H. destruct H.
      + cbn. assert (In r (ofKey k t)) by (apply (Permutation_in r P); now left). apply filter_In in H as [H1 H2].
        replace (existsb (fun r => key N r =? k) t) with true; [reflexivity|]. symmetry. apply existsb_exists. exists r. auto.
    - f_equal. set (p := fun r => veqb (val N r) v).
      assert (P : Permutation (filter (fun r => (key N r =? k) && veqb (val N r) v) t) (filter p (select N t k))).
      { rewrite (Permutation_filter _ _ _ (select_perm t k)). unfold ofKey. clear. subst p. induction t as [|x t IH]; cbn; [reflexivity|]. destruct (key N x =? k); cbn; [|exact IH].
        destruct (veqb (val N x) v); auto. }
      assert (X : existsb (fun x => veqb x v) (L k) = match filter p (select N t k) with [] => false | _ => true end).
      { rewrite <- (K5 k). subst p. clear. induction (select N t k) as [|x l IH]; cbn; [reflexivity|]. destruct (veqb (val N x) v); cbn; auto. }
      rewrite X. set (F := filter (fun r => (key N r =? k) && veqb (val N r) v) t) in *.
      assert (G : forall (l : table) z, (l <> [] -> exists r, In r l /\ fold_left (fun _ r => rid N r) l z = rid N r)).
      { clear. induction l as [|x l IH]; intros z H; [congruence|]. cbn. destruct l as [|y l]; [exists x; cbn; auto|].
        destruct (IH (rid N x)) as (r & Hr & Er); [discriminate|]. exists r. split; [now right|exact Er]. }
      destruct (filter p (select N t k)) as [|r c].
      + symmetry in P. apply Permutation_nil in P. rewrite P. reflexivity.
      + assert (NF : F <> []) by (intro Q; rewrite Q in P; apply Permutation_nil in P; discriminate).
        destruct (G F 0 NF) as (r' & Hr' & ->). assert (In r' t) by (unfold F in Hr'; apply filter_In in Hr'; tauto).
        rewrite Forall_forall in K2. specialize (K2 r' H). replace (rid N r' =? 0) with false by lia. reflexivity.
    - f_equal. now apply indexOf_ok.
    - f_equal. now apply indexOf_ok.
    - now rewrite K5.
  Qed.

  Lemma keeps_empty : keeps [] (fun _ => []).
  Proof. constructor; try constructor. Qed.

  Theorem srun_keeps h : eqn N (minusOne N) (minusOne N) = true ->
    forall t L, keeps t L -> good_history veqb valid_op L h -> precise_history N veqb t h ->
    keeps (srun veqb N t h) (lists_after veqb L h).
  Proof.
    intros Hm. induction h as [|o h IH]; intros t L K Hg Hp; cbn in *; [exact K|].
    destruct Hg as [Hv Hg], Hp as [Hp Hp']. destruct (sstep_keeps t L o Hm K Hv Hp) as [K' _]. now apply IH.
  Qed.
End SqlOrderProofs.
