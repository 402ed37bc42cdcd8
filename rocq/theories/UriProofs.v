(** Proofs about paths. *)
From Verif Require Import Base UriModel UriSpec.
Open Scope Z_scope.

(** ** Arrays *)
Lemma zget_mid : forall {A} (a : list A) x b n, n = zlen a -> zget (a ++ x :: b) n = Some x.
Proof.
  intros A a x b n ->. unfold zget, zlen. destruct (Z.ltb_spec (Z.of_nat (length a)) 0); [lia|].
  rewrite Nat2Z.id, nth_error_app2, Nat.sub_diag; auto.
Qed.
Lemma zset_mid : forall {A} (a : list A) x b n v, n = zlen a -> zset (a ++ x :: b) n v = Some (a ++ v :: b).
Proof.
  intros A a x b n v ->. unfold zset. rewrite zlen_app, zlen_cons. pose proof (zlen_nonneg a). pose proof (zlen_nonneg b).
  destruct (Z.leb_spec 0 (zlen a)); [|lia]. destruct (Z.ltb_spec (zlen a) (zlen a + (1 + zlen b))); [|lia]. cbn [andb].
  f_equal. unfold zlen. rewrite Nat2Z.id. rewrite firstn_app, firstn_all, Nat.sub_diag. cbn. rewrite app_nil_r. f_equal. f_equal.
  rewrite skipn_app. rewrite skipn_all2 by lia. replace (length a + 1 - length a)%nat with 1%nat by lia. reflexivity.
Qed.
Lemma zlen_repeat : forall {A} (x : A) n, zlen (repeat x n) = Z.of_nat n.
Proof. intros. unfold zlen. rewrite repeat_length. auto. Qed.

Definition starts_not (c : Z) (l : str) : Prop := match l with x :: _ => x <> c | [] => True end.

Ltac zlens := repeat first [rewrite zlen_app | rewrite zlen_cons | rewrite zlen_repeat | rewrite @zlen_nil].

Ltac zlens_in H := repeat first [rewrite zlen_app in H | rewrite zlen_cons in H | rewrite zlen_repeat in H | rewrite @zlen_nil in H].
Ltac nonneg := repeat match goal with |- context [zlen ?x] => lazymatch goal with H : 0 <= zlen x |- _ => fail | _ => pose proof (zlen_nonneg x) end end.
(** decide the first condition of the goal by arithmetic *)
Ltac zif := match goal with |- context [if ?b then _ else _] => let E := fresh "E" in destruct b eqn:E; zlens_in E; [try (exfalso; lia)|try (exfalso; lia)] end.

Lemma skip_run : forall k fuel a rest, (k < fuel)%nat -> starts_not slash rest ->
  skip fuel (a ++ repeat slash k ++ rest) (zlen a) = Some (zlen a + Z.of_nat k).
Proof.
  induction k as [|k IH]; intros fuel a rest F S; (destruct fuel as [|fuel]; [lia|]); cbn [skip repeat app].
  - destruct rest as [|c rest].
    + zlens. destruct (Z.leb_spec (zlen a) (zlen a + 0 - 1)); [lia|]. f_equal; lia.
    + zlens. pose proof (zlen_nonneg rest). destruct (Z.leb_spec (zlen a) (zlen a + (1 + zlen rest) - 1)); [|lia].
      rewrite zget_mid by auto. cbn [obind]. cbn in S. destruct (Z.eqb_spec c slash); [lia|]. f_equal; lia.
  - zlens. pose proof (zlen_nonneg rest).
    destruct (Z.leb_spec (zlen a) (zlen a + (1 + (Z.of_nat k + zlen rest)) - 1)); [|lia].
    rewrite zget_mid by auto. cbn [obind]. rewrite Z.eqb_refl.
    replace (a ++ slash :: repeat slash k ++ rest) with ((a ++ [slash]) ++ repeat slash k ++ rest) by (rewrite <- app_assoc; auto).
    replace (zlen a + 1) with (zlen (a ++ [slash])) by (zlens; lia).
    rewrite IH by (auto; lia). zlens. 
 f_equal; lia.
Qed.

Lemma next_segment_run : forall s fuel a k rest, (length s + k < fuel)%nat -> ~ In slash s -> starts_not slash rest ->
  (k = 0%nat -> rest = []) ->
  next_segment fuel (a ++ s ++ repeat slash k ++ rest) (zlen a) = Some (zlen a + zlen s + Z.of_nat k, Nat.leb k 1).
Proof.
  induction s as [|c s IH]; intros fuel a k rest F NS S K; (destruct fuel as [|fuel]; [cbn in F; lia|]); cbn [next_segment app].
  - destruct k as [|k].
    + rewrite (K eq_refl). cbn [repeat app]. zlens. destruct (Z.leb_spec (zlen a) (zlen a + 0 - 1)); [lia|]. f_equal. f_equal; lia.
    + cbn [repeat app]. zlens. pose proof (zlen_nonneg rest).
      destruct (Z.leb_spec (zlen a) (zlen a + (1 + (Z.of_nat k + zlen rest)) - 1)); [|lia].
      rewrite zget_mid by auto. cbn [obind]. rewrite Z.eqb_refl. cbn [negb].
      replace (a ++ slash :: repeat slash k ++ rest) with ((a ++ [slash]) ++ repeat slash k ++ rest) by (rewrite <- app_assoc; auto).
      replace (zlen a + 1) with (zlen (a ++ [slash])) by (zlens; lia).
      rewrite skip_run by (auto; cbn in F; lia). cbn [obind]. zlens. f_equal. f_equal; [lia|].
      destruct k; cbn; destruct (Z.eqb_spec (zlen a + (1 + 0) + Z.of_nat 0) (zlen a + (1 + 0))); try lia; auto;
      match goal with |- (?x =? ?y) = _ => destruct (Z.eqb_spec x y); try lia; auto end.
  - zlens. pose proof (zlen_nonneg rest). pose proof (zlen_nonneg s).
    destruct (Z.leb_spec (zlen a) (zlen a + (1 + (zlen s + (Z.of_nat k + zlen rest))) - 1)); [|lia].
    rewrite zget_mid by auto. cbn [obind]. destruct (Z.eqb_spec c slash) as [E|E]; [exfalso; apply NS; cbn; auto|]. cbn [negb].
    replace (a ++ c :: s ++ repeat slash k ++ rest) with ((a ++ [c]) ++ s ++ repeat slash k ++ rest) by (rewrite <- app_assoc; auto).
    replace (zlen a + 1) with (zlen (a ++ [c])) by (zlens; lia).
    rewrite IH; auto.
    + zlens. f_equal. f_equal; lia.
    + cbn in F; lia.
    + intro; apply NS; cbn; auto.
Qed.

(** 1 for ".", 2 for "..", 0 otherwise *)
Definition kind (s : str) : nat :=
  if list_eq_dec Z.eq_dec s [dot] then 1%nat else if list_eq_dec Z.eq_dec s [dot; dot] then 2%nat else 0%nat.

Definition starts_with_or_nil (c : Z) (l : str) : Prop := match l with x :: _ => x = c | [] => True end.

Lemma dots_at_run : forall sep a s rest, s <> [] -> ~ In sep s -> sep <> dot -> starts_with_or_nil sep rest ->
  dots_at sep (a ++ s ++ rest) (zlen a) = Some (kind s).
Proof.
  intros sep a s rest NE NS ND R. unfold dots_at.
  pose proof (zlen_nonneg a). pose proof (zlen_nonneg rest).
  destruct s as [|c s]; [congruence|]. cbn [app]. rewrite zget_mid by auto. cbn [obind].
  destruct (Z.eqb_spec c dot) as [->|N].
  2:{ cbn [negb]. unfold kind. destruct (list_eq_dec _ _ _) as [E|_]; [inversion E; congruence|].
      destruct (list_eq_dec _ _ _) as [E|_]; [inversion E; congruence|]. auto. }
  cbn [negb]. destruct s as [|c1 s].
  - cbn [app]. destruct rest as [|x rest].
    + zif. reflexivity.
    + cbn in R. subst x. pose proof (zlen_nonneg rest). zif.
      replace (a ++ dot :: sep :: rest) with ((a ++ [dot]) ++ sep :: rest) by (rewrite <- app_assoc; auto).
      rewrite zget_mid by (zlens; lia). cbn [obind]. rewrite Z.eqb_refl. reflexivity.
  - cbn [app]. pose proof (zlen_nonneg s). zif.
    replace (a ++ dot :: c1 :: s ++ rest) with ((a ++ [dot]) ++ c1 :: s ++ rest) by (rewrite <- app_assoc; auto).
    rewrite zget_mid by (zlens; lia). cbn [obind].
    destruct (Z.eqb_spec c1 sep) as [->|N1]; [exfalso; apply NS; cbn; auto|].
    destruct (Z.eqb_spec c1 dot) as [->|N2].
    2:{ cbn [negb]. unfold kind. destruct (list_eq_dec _ _ _) as [E1|_]; [inversion E1|].
        destruct (list_eq_dec _ _ _) as [E1|_]; [inversion E1; congruence|]. auto. }
    cbn [negb]. destruct s as [|c2 s].
    + cbn [app]. destruct rest as [|x rest].
      * zif. reflexivity.
      * cbn in R. subst x. pose proof (zlen_nonneg rest). zif.
        replace ((a ++ [dot]) ++ dot :: sep :: rest) with ((a ++ [dot; dot]) ++ sep :: rest) by (rewrite <- !app_assoc; auto).
        rewrite zget_mid by (zlens; lia). cbn [obind]. rewrite Z.eqb_refl. reflexivity.
    + cbn [app]. pose proof (zlen_nonneg s). zif.
      replace ((a ++ [dot]) ++ dot :: c2 :: s ++ rest) with ((a ++ [dot; dot]) ++ c2 :: s ++ rest) by (rewrite <- !app_assoc; auto).
      rewrite zget_mid by (zlens; lia). cbn [obind].
      destruct (Z.eqb_spec c2 sep) as [->|N3]; [exfalso; apply NS; cbn; auto|].
      unfold kind. destruct (list_eq_dec _ _ _) as [E1|_]; [inversion E1|].
      destruct (list_eq_dec _ _ _) as [E1|_]; [inversion E1|]. auto.
Qed.

(** ** Parsed paths: segments and the number of slashes that follow *)
Notation part := (str * nat)%type.
Definition flat (sep : Z) (l : list part) : str := flat_map (fun x => fst x ++ repeat sep (snd x)) l.
Fixpoint wf (l : list part) : Prop :=
  match l with
  | [] => True
  | (s, k) :: l' => s <> [] /\ ~ In slash s /\ ~ In nul s /\ (k = 0%nat -> l' = []) /\ wf l'
  end.

Lemma flat_cons : forall sep s k l, flat sep ((s, k) :: l) = s ++ repeat sep k ++ flat sep l.
Proof. intros. unfold flat. cbn. rewrite <- app_assoc. auto. Qed.
Lemma flat_app : forall sep l1 l2, flat sep (l1 ++ l2) = flat sep l1 ++ flat sep l2.
Proof. intros. apply flat_map_app. Qed.
Lemma flat_length : forall sep1 sep2 l, length (flat sep1 l) = length (flat sep2 l).
Proof. induction l as [|[s k] l IH]; auto. rewrite !flat_cons, !app_length, !repeat_length, IH. auto. Qed.
Lemma flat_zlen : forall sep1 sep2 l, zlen (flat sep1 l) = zlen (flat sep2 l).
Proof. intros. unfold zlen. rewrite (flat_length sep1 sep2). auto. Qed.

Lemma wf_starts_not : forall l, wf l -> starts_not slash (flat slash l).
Proof.
  destruct l as [|[s k] l]; cbn; auto. intros (N & NS & _). destruct s as [|c s]; [congruence|]. cbn. intros ->. apply NS; cbn; auto.
Qed.
Lemma wf_starts_not_nul : forall sep l, wf l -> starts_not nul (flat sep l).
Proof.
  destruct l as [|[s k] l]; cbn; auto. intros (N & NS & NN & _). destruct s as [|c s]; [congruence|]. cbn. intros ->. apply NN; cbn; auto.
Qed.
Lemma wf_app_r : forall l1 l2, wf (l1 ++ l2) -> wf l2.
Proof. induction l1 as [|[s k] l1 IH]; cbn; auto. intros l2 H. apply IH. tauto. Qed.

Lemma not_in_cons : forall (c x : Z) s, c <> x -> ~ In x s -> ~ In x (c :: s).
Proof. intros c x s N H [E|I]; auto. Qed.

Lemma parse : forall p, no_nul p -> exists k l, p = repeat slash k ++ flat slash l /\ wf l.
Proof.
  induction p as [|c p IH]; intros NN.
  - exists 0%nat, []. cbn; auto.
  - destruct IH as (k & l & E & W). { intro H; apply NN; cbn; auto. }
    assert (NC : c <> nul) by (intros ->; apply NN; cbn; auto).
    assert (I0 : forall x, ~ In x (@nil Z)) by (intros x []).
    destruct (Z.eq_dec c slash) as [->|N].
    + exists (S k), l. cbn. rewrite E. auto.
    + destruct k as [|k].
      * destruct l as [|[s k'] l'].
        -- exists 0%nat, [([c], 0%nat)]. cbn in E. subst p. split; auto. cbn [wf].
           split; [discriminate|]. auto using not_in_cons.
        -- exists 0%nat, ((c :: s, k') :: l'). rewrite E. rewrite !flat_cons. cbn [repeat app]. split; auto.
           cbn [wf] in W |- *. destruct W as (W1 & W2 & W3 & W4 & W5). split; [discriminate|]. auto using not_in_cons.
      * exists 0%nat, (([c], S k) :: l). rewrite E, flat_cons. split; auto. cbn [wf]. split; [discriminate|].
        split; [auto using not_in_cons|]. split; [auto using not_in_cons|]. split; [discriminate|auto].
Qed.

(** ** needsNormalization *)
Fixpoint all_normal (l : list part) : bool :=
  match l with [] => true | (s, k) :: l' => Nat.eqb (kind s) 0 && Nat.leb k 1 && all_normal l' end.

Lemma rest_starts : forall sep k l, (k = 0%nat -> l = []) -> starts_with_or_nil sep (repeat sep k ++ flat sep l).
Proof. intros sep [|k] l H; cbn; auto. rewrite H; cbn; auto. Qed.

Lemma slash_not_dot : slash <> dot. Proof. discriminate. Qed.
Lemma nul_not_dot : nul <> dot. Proof. discriminate. Qed.

Lemma scan_run : forall l fuel a normal ns, (length (flat slash l) + 1 < fuel)%nat -> wf l ->
  scan fuel (a ++ flat slash l) (zlen a) normal ns = Some (normal && all_normal l, ns + zlen l).
Proof.
  induction l as [|[s k] l IH]; intros fuel a normal ns F W; (destruct fuel as [|fuel]; [lia|]); cbn [scan].
  - cbn [flat flat_map]. zlens. destruct (Z.leb_spec (zlen a) (zlen a + 0 - 1)); [lia|]. cbn. rewrite andb_true_r. f_equal. f_equal. lia.
  - cbn in W. destruct W as (W1 & W2 & W3 & W4 & W5). rewrite flat_cons in *. rewrite !app_length, repeat_length in F.
    assert (0 < zlen s) by (unfold zlen; destruct s; [congruence|cbn; lia]).
    zlens. pose proof (zlen_nonneg (flat slash l)).
    destruct (Z.leb_spec (zlen a) (zlen a + (zlen s + (Z.of_nat k + zlen (flat slash l))) - 1)); [|lia].
    rewrite dots_at_run by (auto using slash_not_dot, rest_starts). cbn [obind].
    rewrite next_segment_run; [|lia|auto|apply wf_starts_not; auto|intros ->; rewrite W4; auto]. cbn [obind].
    replace (a ++ s ++ repeat slash k ++ flat slash l) with ((a ++ s ++ repeat slash k) ++ flat slash l) by (rewrite <- !app_assoc; auto).
    replace (zlen a + zlen s + Z.of_nat k) with (zlen (a ++ s ++ repeat slash k)) by (zlens; lia).
    rewrite IH; auto.
    + zlens. cbn [all_normal]. f_equal. f_equal; [|lia]. destruct normal, (Nat.eqb (kind s) 0), (Nat.leb k 1); auto.
    + destruct s; [congruence|]. cbn in F. lia.
Qed.

Lemma needs_run : forall k l, wf l ->
  needsNormalization (repeat slash k ++ flat slash l) = Some (if Nat.leb k 1 && all_normal l then -1 else zlen l).
Proof.
  intros k l W. unfold needsNormalization.
  pose proof (skip_run k (fuel_of (repeat slash k ++ flat slash l)) [] (flat slash l)) as S. cbn [app] in S. change (zlen (@nil Z)) with 0 in S.
  rewrite S; [|unfold fuel_of; rewrite app_length, repeat_length; lia|apply wf_starts_not; auto]. cbn [obind].
  pose proof (scan_run l (fuel_of (repeat slash k ++ flat slash l)) (repeat slash k)) as C.
  rewrite zlen_repeat in C.
  replace (0 + Z.of_nat k) with (Z.of_nat k) by lia. rewrite C; auto.
  2:{ unfold fuel_of. rewrite app_length. lia. }
  cbn [obind]. f_equal. replace (negb (Z.of_nat k >? 1)) with (Nat.leb k 1) by (destruct k as [|[|k]]; auto; cbn; destruct (Z.gtb_spec (Z.pos (Pos.succ (Pos.of_succ_nat k))) 1); auto; lia).
  destruct (Nat.leb k 1 && all_normal l); auto.
Qed.

(** ** split *)
Ltac peq := match goal with |- Some (?a, ?b) = Some (?c, ?d) => let H := fresh in assert (H : b = d) by lia; exact (f_equal (fun z => Some (a, z)) H) end.
Lemma erase_run : forall k fuel a rest, (k < fuel)%nat -> starts_not slash rest ->
  erase fuel (a ++ repeat slash k ++ rest) (zlen a) = Some (a ++ repeat nul k ++ rest, zlen a + Z.of_nat k).
Proof.
  induction k as [|k IH]; intros fuel a rest F S; (destruct fuel as [|fuel]; [lia|]); cbn [erase repeat app].
  - destruct rest as [|c rest].
    + zlens. destruct (Z.leb_spec (zlen a) (zlen a + 0 - 1)); [lia|]. peq.
    + zlens. pose proof (zlen_nonneg rest). destruct (Z.leb_spec (zlen a) (zlen a + (1 + zlen rest) - 1)); [|lia].
      rewrite zget_mid by auto. cbn [obind]. cbn in S. destruct (Z.eqb_spec c slash); [lia|]. peq.
  - zlens. pose proof (zlen_nonneg rest).
    destruct (Z.leb_spec (zlen a) (zlen a + (1 + (Z.of_nat k + zlen rest)) - 1)); [|lia].
    rewrite zget_mid by auto. cbn [obind]. rewrite Z.eqb_refl. rewrite zset_mid by auto. cbn [obind].
    replace (a ++ nul :: repeat slash k ++ rest) with ((a ++ [nul]) ++ repeat slash k ++ rest) by (rewrite <- app_assoc; auto).
    replace (zlen a + 1) with (zlen (a ++ [nul])) by (zlens; lia).
    rewrite IH by (auto; lia). zlens. rewrite <- app_assoc. cbn [app].
 peq.
Qed.

Lemma erase_next_run : forall s fuel a k rest, (length s + k < fuel)%nat -> ~ In slash s -> starts_not slash rest ->
  (k = 0%nat -> rest = []) ->
  erase_next fuel (a ++ s ++ repeat slash k ++ rest) (zlen a) = Some (a ++ s ++ repeat nul k ++ rest, zlen a + zlen s + Z.of_nat k).
Proof.
  induction s as [|c s IH]; intros fuel a k rest F NS S K; (destruct fuel as [|fuel]; [cbn in F; lia|]); cbn [erase_next app].
  - destruct k as [|k].
    + rewrite (K eq_refl). cbn [repeat app]. zlens. destruct (Z.leb_spec (zlen a) (zlen a + 0 - 1)); [lia|]. peq.
    + cbn [repeat app]. zlens. pose proof (zlen_nonneg rest).
      destruct (Z.leb_spec (zlen a) (zlen a + (1 + (Z.of_nat k + zlen rest)) - 1)); [|lia].
      rewrite zget_mid by auto. cbn [obind]. rewrite Z.eqb_refl. cbn [negb]. rewrite zset_mid by auto. cbn [obind].
      replace (a ++ nul :: repeat slash k ++ rest) with ((a ++ [nul]) ++ repeat slash k ++ rest) by (rewrite <- app_assoc; auto).
      replace (zlen a + 1) with (zlen (a ++ [nul])) by (zlens; lia).
      rewrite erase_run by (auto; cbn in F; lia). zlens. rewrite <- app_assoc. cbn [app]. peq.
  - zlens. pose proof (zlen_nonneg rest). pose proof (zlen_nonneg s).
    destruct (Z.leb_spec (zlen a) (zlen a + (1 + (zlen s + (Z.of_nat k + zlen rest))) - 1)); [|lia].
    rewrite zget_mid by auto. cbn [obind]. destruct (Z.eqb_spec c slash) as [E|E]; [exfalso; apply NS; cbn; auto|]. cbn [negb].
    replace (a ++ c :: s ++ repeat slash k ++ rest) with ((a ++ [c]) ++ s ++ repeat slash k ++ rest) by (rewrite <- app_assoc; auto).
    replace (zlen a + 1) with (zlen (a ++ [c])) by (zlens; lia).
    rewrite IH; auto.
    + zlens. rewrite <- app_assoc. cbn [app]. peq.
    + cbn in F; lia.
    + intro; apply NS; cbn; auto.
Qed.

Fixpoint starts (off : Z) (l : list part) : list Z :=
  match l with [] => [] | (s, k) :: l' => off :: starts (off + zlen s + Z.of_nat k) l' end.

Lemma split_loop_run : forall l fuel a segs, (length (flat slash l) + 1 < fuel)%nat -> wf l ->
  split_loop fuel (a ++ flat slash l) (segs ++ repeat 0 (length l)) (zlen a) (zlen segs) =
  Some (a ++ flat nul l, segs ++ starts (zlen a) l).
Proof.
  induction l as [|[s k] l IH]; intros fuel a segs F W; (destruct fuel as [|fuel]; [lia|]); cbn [split_loop].
  - cbn [flat flat_map]. zlens. destruct (Z.leb_spec (zlen a) (zlen a + 0 - 1)); [lia|]. cbn. auto.
  - cbn in W. destruct W as (W1 & W2 & W3 & W4 & W5). rewrite flat_cons in *. rewrite !app_length, repeat_length in F.
    destruct s as [|c s]; [congruence|].
    zlens. pose proof (zlen_nonneg (flat slash l)). pose proof (zlen_nonneg s).
    destruct (Z.leb_spec (zlen a) (zlen a + (1 + zlen s + (Z.of_nat k + zlen (flat slash l))) - 1)); [|lia].
    cbn [length repeat]. rewrite zset_mid by auto. cbn [obind].
    replace (a ++ (c :: s) ++ repeat slash k ++ flat slash l) with ((a ++ [c]) ++ s ++ repeat slash k ++ flat slash l) by (rewrite <- app_assoc; auto).
    replace (zlen a + 1) with (zlen (a ++ [c])) by (zlens; lia).
    rewrite erase_next_run; [|cbn in F; lia|intro; apply W2; cbn; auto|apply wf_starts_not; auto|intros ->; rewrite W4; auto]. cbn [obind].
    replace ((a ++ [c]) ++ s ++ repeat nul k ++ flat slash l) with ((a ++ (c :: s) ++ repeat nul k) ++ flat slash l) by (rewrite <- !app_assoc; auto).
    replace (zlen (a ++ [c]) + zlen s + Z.of_nat k) with (zlen (a ++ (c :: s) ++ repeat nul k)) by (zlens; lia).
    replace (segs ++ zlen a :: repeat 0 (length l)) with ((segs ++ [zlen a]) ++ repeat 0 (length l)) by (rewrite <- app_assoc; auto).
    replace (zlen segs + 1) with (zlen (segs ++ [zlen a])) by (zlens; lia).
    rewrite IH; auto.
    + rewrite !flat_cons, <- !app_assoc. cbn [app starts]. f_equal. f_equal. f_equal. f_equal. f_equal. zlens. lia.
    + cbn in F. lia.
Qed.

Lemma split_run : forall k l, wf l ->
  split (repeat slash k ++ flat slash l) (repeat 0 (length l)) = Some (repeat nul k ++ flat nul l, starts (Z.of_nat k) l).
Proof.
  intros k l W. unfold split.
  pose proof (erase_run k (fuel_of (repeat slash k ++ flat slash l)) [] (flat slash l)) as S. cbn [app] in S. change (zlen (@nil Z)) with 0 in S.
  rewrite S; [|unfold fuel_of; rewrite app_length, repeat_length; lia|apply wf_starts_not; auto]. cbn [obind].
  pose proof (split_loop_run l (fuel_of (repeat slash k ++ flat slash l)) (repeat nul k) []) as C. rewrite zlen_repeat in C. cbn [app] in C. change (zlen (@nil Z)) with 0 in C.
  replace (0 + Z.of_nat k) with (Z.of_nat k) by lia. rewrite C; auto.
  unfold fuel_of. rewrite app_length. lia.
Qed.
