(** Proofs about paths: normalize yields the canonical form. *)
From Coq Require Import Relations.
From Verif Require Import Base UriModel UriSpec UriProofs UriProofs2 UriProofs3.
Open Scope Z_scope.

Definition seg_of (n : nat) (x : part) : segment := mkSeg n (fst x) (negb (Nat.eqb (snd x) 0)).
Fixpoint number (n : nat) (l : list part) : list segment := match l with [] => [] | x :: l' => seg_of n x :: number (S n) l' end.
Fixpoint survivors (n : nat) (ms : list marked) : list segment :=
  match ms with [] => [] | (x, b) :: ms' => (if b : bool then [seg_of n x] else []) ++ survivors (S n) ms' end.

Lemma segments_slashes : forall k n p, segments_from n [] (repeat slash k ++ p) = segments_from n [] p.
Proof. induction k; intros; cbn [repeat app segments_from]; auto. change (slash =? slash) with true. cbv iota. auto. Qed.
Lemma segments_text : forall s n cur p, ~ In slash s -> segments_from n cur (s ++ p) = segments_from n (cur ++ s) p.
Proof.
  induction s as [|c s IH]; intros n cur p N; cbn [app segments_from]; [rewrite app_nil_r; auto|].
  destruct (Z.eqb_spec c slash) as [->|_]; [exfalso; apply N; cbn; auto|]. rewrite IH, <- app_assoc; auto. intros H; apply N; cbn; auto.
Qed.
Lemma segments_number : forall l n, wf l -> segments_from n [] (flat slash l) = number n l.
Proof.
  induction l as [|[s k] l IH]; intros n W; [reflexivity|].
  destruct (wf_mid [] _ _ _ W) as (W1 & W2 & W3 & W4). rewrite flat_cons, segments_text by auto. cbn [app].
  assert (W' : wf l) by (apply (wf_app_r [(s, k)]); auto). cbn [number]. unfold seg_of. cbn [fst snd].
  destruct k as [|k].
  - rewrite (W4 eq_refl). cbn. destruct s as [|c0 s0]; [congruence|reflexivity].
  - destruct s as [|c0 s0]; [congruence|]. cbn [repeat app segments_from]. change (slash =? slash) with true. cbv iota. rewrite segments_slashes, IH by auto. reflexivity.
Qed.

(** ** the stack discipline *)
Definition red (acc : list segment) (x : segment) : list segment :=
  match kind (text x) with
  | 0%nat => acc ++ [x]
  | 1%nat => acc
  | _ => match rev acc with y :: r => if Nat.eqb (kind (text y)) 2 then acc ++ [x] else rev r | [] => acc ++ [x] end
  end.

Lemma survivors_app : forall a n b, survivors n (a ++ b) = survivors n a ++ survivors (n + length a) b.
Proof.
  induction a as [|[x m] a IH]; intros n b; cbn [survivors app length]; [rewrite Nat.add_0_r; auto|].
  rewrite IH, <- app_assoc. f_equal. f_equal. f_equal. lia.
Qed.
Lemma survivors_dead : forall d n, (forall x, In x d -> snd x = false) -> survivors n d = [].
Proof.
  induction d as [|[x m] d IH]; intros n H; auto. cbn [survivors]. assert (m = false) as -> by (apply (H (x, m)); cbn; auto).
  apply IH. intros; apply H; cbn; auto.
Qed.
Lemma survivors_push : forall d x, survivors 0 (push d x) = red (survivors 0 d) (seg_of (length d) x).
Proof.
  intros d x. unfold push, red. cbn [text seg_of]. destruct (kind (fst x)) as [|[|n]].
  - rewrite survivors_app. reflexivity.
  - rewrite survivors_app. cbn. rewrite app_nil_r. auto.
  - destruct (last_alive d) as [A|(d1 & y & d2 & -> & A)].
    + rewrite kill_dead by (intros y Hy; apply A; apply in_rev; auto). rewrite (survivors_dead d) by auto. cbn [rev app].
      rewrite survivors_app, survivors_dead by auto. reflexivity.
    + rewrite kill_last by auto.
      assert (E : forall b : bool, survivors 0 (d1 ++ (y, b) :: d2) = survivors 0 d1 ++ (if b then [seg_of (length d1) y] else [])).
      { intros b. rewrite survivors_app. cbn [survivors]. rewrite (survivors_dead d2) by auto. rewrite app_nil_r. auto. }
      rewrite (E true). rewrite (rev_app_distr (survivors 0 d1)). cbn [rev app]. cbn [text seg_of].
      destruct (Nat.eqb (kind (fst y)) 2).
      * rewrite survivors_app, E. reflexivity.
      * rewrite rev_involutive, survivors_app, E. cbn [survivors app]. rewrite !app_nil_r, rev_involutive. auto.
Qed.
Lemma push_length : forall d x, length (push d x) = S (length d).
Proof. intros d x. pose proof (push_parts d x) as P. apply (f_equal (@length _)) in P. unfold parts in P. rewrite app_length, !map_length in P. cbn in P. lia. Qed.
Lemma survivors_fold : forall l d, survivors 0 (fold_left push l d) = fold_left red (number (length d) l) (survivors 0 d).
Proof.
  induction l as [|x l IH]; intros d; cbn [fold_left number]; auto. rewrite IH, push_length, survivors_push. auto.
Qed.

Lemma kind_dot : forall s : segment, is_dot s <-> kind (text s) = 1%nat.
Proof. intros s. unfold is_dot. destruct (kind_cases (text s)) as [K|[[K E]|[K E]]]; rewrite K; split; intros H; try discriminate; auto; rewrite H in K || rewrite H in E; discriminate. Qed.
Lemma kind_dots : forall s : segment, is_dots s <-> kind (text s) = 2%nat.
Proof. intros s. unfold is_dots. destruct (kind_cases (text s)) as [K|[[K E]|[K E]]]; rewrite K; split; intros H; try discriminate; auto; rewrite H in K || rewrite H in E; discriminate. Qed.

Definition stacked (l : list segment) : Prop :=
  (forall s, In s l -> ~ is_dot s) /\ (forall a s t b, l = a ++ s :: t :: b -> is_dots t -> is_dots s).

Lemma stacked_reduced : forall l, stacked l <-> reduced l.
Proof.
  intros l. split.
  - intros [D P] l' R. inversion R as [a s b H E|a s t b H1 H2 H3 E]; subst.
    + apply (D s); auto. apply in_elt.
    + apply H2. eapply P; eauto.
  - intros R. split.
    + intros s I H. apply in_split in I. destruct I as (a & b & ->). apply (R (a ++ b)). constructor; auto.
    + intros a s t b -> H. destruct (Nat.eq_dec (kind (text s)) 2) as [E|E]; [apply kind_dots; auto|].
      exfalso. destruct (Nat.eq_dec (kind (text s)) 1) as [E1|E1].
      * apply (R (a ++ t :: b)). apply remove_dot. apply kind_dot. auto.
      * apply (R (a ++ b)). apply remove_parent; auto; intros Q; [apply kind_dot in Q|apply kind_dots in Q]; congruence.
Qed.

Lemma app_last2 : forall {A} (l : list A) x a s t b, l ++ [x] = a ++ s :: t :: b -> (b = [] /\ t = x /\ l = a ++ [s]) \/ (exists b', b = b' ++ [x] /\ l = a ++ s :: t :: b').
Proof.
  intros A l x a s t b E. destruct (exists_last (l := t :: b)) as (b' & y & E2); [discriminate|].
  rewrite E2 in E. replace (a ++ s :: b' ++ [y]) with ((a ++ s :: b') ++ [y]) in E by (rewrite <- app_assoc; auto).
  apply app_inj_tail in E. destruct E as [-> ->].
  destruct b' as [|t' b'].
  - cbn in E2. injection E2 as -> ->. left. auto.
  - cbn in E2. injection E2 as -> ->. right. exists b'. auto.
Qed.

Lemma stacked_app_l : forall a b, stacked (a ++ b) -> stacked a.
Proof.
  intros a b [D P]. split.
  - intros s I. apply D. apply in_or_app; auto.
  - intros a' s t b' -> H. apply (P a' s t (b' ++ b)); auto. rewrite <- app_assoc. auto.
Qed.
Lemma red_stacked : forall acc x, stacked acc -> stacked (red acc x).
Proof.
  intros acc x S. assert (ADD : kind (text x) <> 1%nat -> (kind (text x) = 2%nat -> forall y r, rev acc = y :: r -> is_dots y) -> stacked (acc ++ [x])).
  { intros K1 K2. split.
    - intros s I. apply in_app_or in I. destruct I as [I|[<-|[]]]; [apply S; auto|]. rewrite kind_dot. auto.
    - intros a s t b E H. apply app_last2 in E. destruct E as [(-> & -> & E)|(b' & -> & E)].
      + apply (K2 (proj1 (kind_dots _) H) s (rev a)). rewrite E, rev_app_distr. auto.
      + eapply (proj2 S); eauto. }
  unfold red. destruct (kind_cases (text x)) as [K|[[K _]|[K _]]]; rewrite K.
  - apply ADD; [congruence|congruence].
  - auto.
  - destruct (rev acc) as [|y r] eqn:E.
    + apply ADD; [congruence|]. intros _ y r E2; congruence.
    + destruct (Nat.eqb_spec (kind (text y)) 2) as [Y|Y].
      * apply ADD; [congruence|]. intros _ y' r' E2. injection E2 as <- <-. apply kind_dots; auto.
      * assert (acc = rev r ++ [y]) by (rewrite <- (rev_involutive acc), E; auto). subst acc. eapply stacked_app_l; eauto.
Qed.
Lemma fold_red_stacked : forall l acc, stacked acc -> stacked (fold_left red l acc).
Proof. induction l; intros; cbn; auto using red_stacked. Qed.
Lemma stacked_nil : stacked [].
Proof. split; [intros s []|intros a s t b E; destruct a; discriminate]. Qed.

Lemma fold_red_reduces : forall l acc, stacked acc -> reduces (acc ++ l) (fold_left red l acc).
Proof.
  induction l as [|x l IH]; intros acc S; cbn [fold_left]; [rewrite app_nil_r; constructor|].
  pose proof (IH (red acc x) (red_stacked acc x S)) as R. revert R. unfold red.
  destruct (kind_cases (text x)) as [K|[[K _]|[K _]]]; rewrite K; intros R.
  - rewrite <- app_assoc in R. exact R.
  - econstructor 2; [|exact R]. apply remove_dot. apply kind_dot. auto.
  - destruct (rev acc) as [|y r] eqn:E; [rewrite <- app_assoc in R; exact R|].
    destruct (Nat.eqb_spec (kind (text y)) 2) as [Y|Y]; [rewrite <- app_assoc in R; exact R|].
    assert (acc = rev r ++ [y]) by (rewrite <- (rev_involutive acc), E; auto). subst acc.
    econstructor 2; [|exact R]. rewrite <- app_assoc. cbn [app]. apply remove_parent.
    + apply S. apply in_elt.
    + rewrite kind_dots. auto.
    + apply kind_dots. auto.
Qed.

Lemma red_removes : forall l l' acc, removes l l' -> fold_left red l acc = fold_left red l' acc.
Proof.
  intros l l' acc R. inversion R as [a s b H E|a s t b H1 H2 H3 E]; subst; rewrite !fold_left_app; cbn [fold_left]; f_equal.
  - unfold red. rewrite (proj1 (kind_dot s)) by auto. auto.
  - assert (K : kind (text s) = 0%nat).
    { destruct (kind_cases (text s)) as [K|[[K _]|[K _]]]; auto; [exfalso; apply H1; apply kind_dot; auto|exfalso; apply H2; apply kind_dots; auto]. }
    unfold red at 1. rewrite (proj1 (kind_dots t)) by auto. unfold red. rewrite K. rewrite rev_app_distr. cbn [rev app]. rewrite K. cbn. apply rev_involutive.
Qed.
Lemma red_reduces : forall l l', reduces l l' -> fold_left red l [] = fold_left red l' [].
Proof. intros l l' R. induction R; auto. rewrite <- IHR. apply red_removes. auto. Qed.
Lemma red_fixed : forall l acc, stacked (acc ++ l) -> fold_left red l acc = acc ++ l.
Proof.
  induction l as [|x l IH]; intros acc S; cbn [fold_left]; [rewrite app_nil_r; auto|].
  assert (E : red acc x = acc ++ [x]).
  { unfold red. destruct (kind_cases (text x)) as [K|[[K _]|[K _]]]; rewrite K; auto.
    - exfalso. apply (proj1 S x); [apply in_elt|apply kind_dot; auto].
    - destruct (rev acc) as [|y r] eqn:E; auto. assert (acc = rev r ++ [y]) by (rewrite <- (rev_involutive acc), E; auto). subst acc.
      assert (Y : is_dots y). { apply (proj2 S (rev r) y x l); [rewrite <- app_assoc; auto|apply kind_dots; auto]. }
      apply kind_dots in Y. rewrite Y. auto. }
  rewrite E, IH; rewrite <- app_assoc; auto.
Qed.
Lemma reduces_unique : forall l l', reduces l l' -> reduced l' -> l' = fold_left red l [].
Proof. intros l l' R S. rewrite (red_reduces _ _ R). symmetry. apply red_fixed. apply stacked_reduced. auto. Qed.

Lemma canonical_unique : forall p q1 q2, canonical p q1 -> canonical p q2 -> q1 = q2.
Proof.
  intros p q1 q2 (l1 & R1 & S1 & ->) (l2 & R2 & S2 & ->). rewrite (reduces_unique _ _ R1 S1), (reduces_unique _ _ R2 S2). auto.
Qed.
Lemma canonical_exists : forall p, exists q, canonical p q.
Proof.
  intros p. eexists. exists (fold_left red (segments p) []). split; [apply (fold_red_reduces _ []); apply stacked_nil|].
  split; [apply stacked_reduced; apply fold_red_stacked; apply stacked_nil|reflexivity].
Qed.

(** ** normalize is canonical *)
Lemma joined_render : forall ms n, joined ms = flat_map (fun s => text s ++ (if followed s then [slash] else [])) (survivors n ms).
Proof.
  induction ms as [|[[s k] b] ms IH]; intros n; auto. cbn [joined flat_map survivors snd fst]. unfold joined in IH. rewrite (IH (S n)).
  destruct b; cbn [app flat_map text followed seg_of]; auto. f_equal. f_equal. cbn [snd]. destruct k; auto.
Qed.
Lemma dotted_looks : forall ms, dotted ms = looks_like_scheme (survivors 0 ms).
Proof.
  intros ms. destruct ms as [|[x b] ms]; auto. destruct b; auto. unfold dotted.
  destruct (first_alive_cases ms) as [A|(d1 & y & d2 & -> & A)].
  - rewrite find_snd_none by (intros z [<-|H]; auto). cbn [survivors app]. rewrite survivors_dead by auto. auto.
  - change ((x, false) :: d1 ++ (y, true) :: d2) with (((x, false) :: d1) ++ (y, true) :: d2).
    rewrite find_snd_dead by (intros z [<-|H]; auto). cbn [survivors app]. rewrite survivors_app, survivors_dead by auto. cbn [survivors app looks_like_scheme].
    cbn [place text seg_of]. reflexivity.
Qed.

Lemma absolute_run : forall k l, wf l -> absolute (repeat slash k ++ flat slash l) = negb (Nat.eqb k 0).
Proof.
  intros [|k] l W; auto. cbn [repeat app Nat.eqb negb]. destruct l as [|[s k] l]; auto.
  destruct (wf_mid [] _ _ _ W) as (W1 & W2 & W3 & W4). rewrite flat_cons. destruct s as [|c s]; [congruence|]. cbn.
  destruct (Z.eqb_spec c slash) as [->|]; auto. exfalso; apply W2; cbn; auto.
Qed.

Lemma all_normal_number : forall l n, all_normal l = true -> stacked (number n l) /\ flat slash l = flat_map (fun s => text s ++ (if followed s then [slash] else [])) (number n l).
Proof.
  intros l n N. split.
  - assert (ND : forall l n s, all_normal l = true -> In s (number n l) -> kind (text s) = 0%nat).
    { clear. induction l as [|[s k] l IH]; intros n x N I; [destruct I|]. cbn in N. apply andb_prop in N. destruct N as [N N3]. apply andb_prop in N. destruct N as [N1 N2].
      destruct I as [<-|I]; [apply Nat.eqb_eq; auto|eapply IH; eauto]. }
    split.
    + intros s I D. apply kind_dot in D. rewrite (ND l n s) in D by auto. discriminate.
    + intros a s t b E D. apply kind_dots in D. rewrite (ND l n t) in D; auto; [discriminate|]. rewrite E. apply in_or_app. cbn. auto.
  - revert n N. induction l as [|[s k] l IH]; intros n N; auto. cbn in N. apply andb_prop in N. destruct N as [N N3]. apply andb_prop in N. destruct N as [N1 N2].
    rewrite flat_cons. cbn [number flat_map text followed seg_of fst snd]. rewrite <- app_assoc. f_equal. rewrite <- (IH (S n)) by auto. f_equal.
    apply Nat.leb_le in N2. destruct k as [|[|k]]; auto. lia.
Qed.

Lemma normalize_canonical : forall p, no_nul p -> exists q, normalize p = Some q /\ canonical p q.
Proof.
  intros p N. destruct (parse p N) as (k & l & -> & W). rewrite normalize_run by auto. eexists. split; [reflexivity|].
  assert (SG : segments (repeat slash k ++ flat slash l) = number 0 l) by (unfold segments; rewrite segments_slashes; apply segments_number; auto).
  unfold canonical. rewrite SG, absolute_run by auto. destruct (Nat.leb k 1 && all_normal l) eqn:NN.
  - apply andb_prop in NN. destruct NN as [K A]. destruct (all_normal_number l 0 A) as [S E].
    exists (number 0 l). split; [constructor|]. split; [apply stacked_reduced; auto|].
    replace (looks_like_scheme (number 0 l)) with false by (destruct l; auto). rewrite andb_false_r. cbn [app]. unfold render. rewrite E. f_equal.
    apply Nat.leb_le in K. destruct k as [|[|k]]; auto. lia.
  - exists (survivors 0 (fold_left push l [])). rewrite survivors_fold. cbn [survivors length].
    split; [apply (fold_red_reduces _ []); apply stacked_nil|].
    split; [apply stacked_reduced; apply fold_red_stacked; apply stacked_nil|].
    rewrite dotted_looks, survivors_fold, (joined_render _ 0), survivors_fold. cbn [survivors length]. unfold render. rewrite negb_involutive.
    destruct k; auto.
Qed.

(** ** normal forms are normal *)
Fixpoint good (l : list segment) : Prop :=
  match l with [] => True | s :: l' => text s <> [] /\ ~ In slash (text s) /\ ~ In nul (text s) /\ (followed s = false -> l' = []) /\ good l' end.
Lemma good_number : forall l n, wf l -> good (number n l).
Proof.
  induction l as [|[s k] l IH]; intros n W; cbn; auto. destruct (wf_mid [] _ _ _ W) as (W1 & W2 & W3 & W4).
  repeat (split; [assumption|]). split; [|apply IH; apply (wf_app_r [(s, k)]); auto].
  destruct k; cbn; [|discriminate]. intros _. rewrite W4; auto.
Qed.
Lemma good_remove : forall a b c, good (a ++ b ++ c) -> good (a ++ c).
Proof.
  assert (TL : forall b c, good (b ++ c) -> good c).
  { induction b as [|x b IH]; intros c H; auto. cbn in H. apply IH. tauto. }
  induction a as [|s a IH]; intros b c H; cbn [app] in *; [eapply TL; eauto|]. cbn in *. destruct H as (H1 & H2 & H3 & H4 & H5).
  repeat (split; [assumption|]). split; [|eapply IH; eauto]. intros F. specialize (H4 F). destruct a; [|discriminate]. destruct b; [auto|discriminate].
Qed.
Lemma good_reduces : forall l l', reduces l l' -> good l -> good l'.
Proof.
  intros l l' R. induction R as [|l l1 l2 R1 R2 IH]; auto. intros G. apply IH. inversion R1; subst.
  - apply (good_remove a [s] b). auto.
  - apply (good_remove a [s; t] b). auto.
Qed.
(** the parts with single slashes *)
Definition part_of (s : segment) : part := (text s, if followed s then 1%nat else 0%nat).
Lemma good_wf : forall l, good l -> wf (map part_of l).
Proof. induction l as [|s l IH]; cbn; auto. intros (H1 & H2 & H3 & H4 & H5). repeat (split; auto). destruct (followed s); [discriminate|]. intros _. rewrite H4; auto. Qed.
Lemma render_flat : forall l, flat_map (fun s => text s ++ (if followed s then [slash] else [])) l = flat slash (map part_of l).
Proof. induction l as [|s l IH]; auto. cbn [flat_map map]. unfold part_of at 1. rewrite flat_cons, IH, <- app_assoc. destruct (followed s); auto. Qed.

Definition same_text (s t : segment) : Prop := text s = text t /\ followed s = followed t.
Lemma number_parts : forall l n, Forall2 same_text (number n (map part_of l)) l.
Proof. induction l as [|s l IH]; intros n; cbn; constructor; auto. unfold same_text, seg_of, part_of. cbn. destruct (followed s); auto. Qed.
Lemma same_stacked : forall l l', Forall2 same_text l l' -> stacked l' -> stacked l.
Proof.
  intros l l' F [D P]. split.
  - intros s I. apply in_split in I. destruct I as (a & b & ->). apply Forall2_app_inv_l in F. destruct F as (a' & b' & _ & F & ->).
    inversion F as [|? y ? ? [E1 _] F1]; subst. intros HD. apply (D y); [apply in_elt|]. unfold is_dot in *. congruence.
  - intros a s t b -> H. apply Forall2_app_inv_l in F. destruct F as (a' & b' & _ & F & ->). inversion F as [|? y ? l1 [E1 _] F1]; subst. inversion F1 as [|? y0 ? l2 [E2 _] F2]; subst.
    unfold is_dots in *. rewrite E1. apply (P a' y y0 l2); auto. congruence.
Qed.

Lemma render_same : forall l l', Forall2 same_text l l' ->
  flat_map (fun s => text s ++ (if followed s then [slash] else [])) l = flat_map (fun s => text s ++ (if followed s then [slash] else [])) l'.
Proof. intros l l' F. induction F as [|s t l l' [E1 E2] F IH]; auto. cbn [flat_map]. rewrite E1, E2, IH. auto. Qed.

Lemma in_flat : forall (c : Z) l, c <> slash -> In c (flat slash l) -> exists x, In x l /\ In c (fst x).
Proof.
  intros c l N H. apply in_flat_map in H. destruct H as (x & I & H). exists x. split; auto. apply in_app_or in H. destruct H as [H|H]; auto.
  apply repeat_spec in H. congruence.
Qed.
Lemma wf_in : forall l x, wf l -> In x l -> fst x <> [] /\ ~ In slash (fst x) /\ ~ In nul (fst x).
Proof. intros l [s k] W I. apply in_split in I. destruct I as (a & b & ->). destruct (wf_mid _ _ _ _ W) as (W1 & W2 & W3 & W4). auto. Qed.

Lemma canonical_no_nul : forall p q, no_nul p -> canonical p q -> no_nul q.
Proof.
  intros p q N (l & R & S & ->). destruct (parse p N) as (k & pl & -> & W).
  assert (SG : segments (repeat slash k ++ flat slash pl) = number 0 pl) by (unfold segments; rewrite segments_slashes; apply segments_number; auto).
  rewrite SG in R. assert (G : good l) by (eapply good_reduces; eauto; apply good_number; auto).
  intros I. apply in_app_or in I. destruct I as [I|I].
  - destruct (negb _ && _); cbn in I; unfold nul, dot, slash in I; intuition lia.
  - unfold render in I. apply in_app_or in I. destruct I as [I|I].
    + destruct (absolute _); cbn in I; unfold nul, slash in I; intuition lia.
    + rewrite render_flat in I. apply in_flat in I; [|discriminate]. destruct I as (x & I & H). destruct (wf_in _ _ (good_wf _ G) I) as (_ & _ & Q). auto.
Qed.

Lemma canonical_idempotent : forall p q, no_nul p -> canonical p q -> canonical q q.
Proof.
  intros p q N (l & R & S & EQ). destruct (parse p N) as (k & pl & -> & W).
  assert (SG : segments (repeat slash k ++ flat slash pl) = number 0 pl) by (unfold segments; rewrite segments_slashes; apply segments_number; auto).
  rewrite SG in R. assert (G : good l) by (eapply good_reduces; eauto; apply good_number; auto).
  pose proof (good_wf l G) as WL. apply stacked_reduced in S.
  rewrite absolute_run in EQ by auto. unfold render in EQ. rewrite render_flat in EQ.
  assert (STN : forall n, stacked (number n (map part_of l))) by (intros n; eapply same_stacked; [apply number_parts|auto]).
  assert (RN : forall n, flat_map (fun s => text s ++ (if followed s then [slash] else [])) (number n (map part_of l)) = flat slash (map part_of l)).
  { intros n. rewrite <- render_flat. apply render_same. apply number_parts. }
  destruct k as [|k]; cbn [Nat.eqb negb andb app] in EQ.
  - destruct (looks_like_scheme l) eqn:LL.
    + subst q. cbn [app].
      assert (SQ : segments ([dot; slash] ++ flat slash (map part_of l)) = mkSeg 0 [dot] true :: number 1 (map part_of l)).
      { pose proof (segments_number (([dot], 1%nat) :: map part_of l) 0) as Q. rewrite flat_cons in Q. cbn [repeat app number] in Q. apply Q.
        cbn [wf]. split; [discriminate|]. split; [|split; [|split; [discriminate|auto]]]; intros [H|[]]; discriminate. }
      exists (number 1 (map part_of l)). cbn [app] in SQ. rewrite SQ. split; [|split].
      * econstructor 2; [apply (remove_dot [])|constructor]. reflexivity.
      * apply stacked_reduced. auto.
      * cbn [absolute]. change (dot =? slash) with false. unfold render. rewrite RN.
        assert (LN : looks_like_scheme (number 1 (map part_of l)) = true).
        { destruct l as [|s l]; [discriminate|]. cbn [looks_like_scheme map number place text seg_of part_of fst] in *. apply andb_prop in LL. destruct LL as [_ LL]. rewrite LL. reflexivity. }
        rewrite LN. reflexivity.
    + subst q. cbn [app]. exists (number 0 (map part_of l)).
      assert (SQ : segments (flat slash (map part_of l)) = number 0 (map part_of l)) by (apply segments_number; auto).
      rewrite SQ. split; [constructor|]. split; [apply stacked_reduced; auto|].
      pose proof (absolute_run 0 (map part_of l) WL) as AB. cbn in AB. rewrite AB.
      replace (looks_like_scheme (number 0 (map part_of l))) with false by (destruct l; auto). cbn [andb negb app]. unfold render. rewrite RN. auto.
  - subst q. exists (number 0 (map part_of l)).
    assert (SQ : segments (repeat slash 1 ++ flat slash (map part_of l)) = number 0 (map part_of l)) by (unfold segments; rewrite segments_slashes; apply segments_number; auto).
    cbn [repeat app] in SQ |- *. rewrite SQ. split; [constructor|]. split; [apply stacked_reduced; auto|].
    cbn [absolute]. change (slash =? slash) with true. cbn [negb andb app]. unfold render. rewrite RN. auto.
Qed.

Lemma normalize_idempotent : forall p q, no_nul p -> normalize p = Some q -> normalize q = Some q.
Proof.
  intros p q N E. destruct (normalize_canonical p N) as (q' & E' & C). rewrite E in E'. injection E' as <-.
  destruct (normalize_canonical q (canonical_no_nul p q N C)) as (q2 & E2 & C2). rewrite E2. f_equal.
  eapply canonical_unique; eauto. eapply canonical_idempotent; eauto.
Qed.
