(** Proofs about store-backed maps. *)
From Coq Require Import Permutation.
From Verif Require Import Base ListModel ListSpec ListProofs CallbackSpec CallbackProofs NotifyModel
  StoreListModel StoreListSpec StoreListProofs MapModel MapSpec MapProofs StoreMapModel StoreMapSpec.

(** what callbacks may say about a change from [l] to [l'] *)
Definition kind (l' : list nat) (cb : list (callback nat)) : Prop :=
  Forall is_add cb \/ Forall is_remove cb
  \/ (exists i new old, cb = [DidSet i new old; DidChange] /\ In new l')
  \/ (exists l, cb = [DidClear l] /\ l' = []).
Definition effect (l l' : list nat) (cb : list (callback nat)) : Prop :=
  kind l' cb /\ Permutation (l ++ entered cb) (l' ++ CallbackSpec.left cb).

Lemma effect_nil l : effect l l [].
Proof. split; [left; constructor|reflexivity]. Qed.
Lemma effect_step l o d cb r : step Nat.eqb 0%nat true l o = Ret (d, cb) r -> effect l d cb.
Proof.
  intro E. split; [exact (step_kind _ _ _ _ _ E)|].
  exact (proj1 (step_callbacks Nat.eqb 0%nat Nat.eqb_spec _ _ _ _ _ _ E)).
Qed.
Lemma effect_insert l n e i : effect l (insert_at n e l) [DidAdd i e; DidChange].
Proof.
  split; [left; repeat constructor|]. cbn [entered CallbackSpec.left]. rewrite app_nil_r. unfold insert_at.
  rewrite <- (firstn_skipn n l) at 1. rewrite <- app_assoc. apply Permutation_app_head.
  symmetry. apply Permutation_cons_append.
Qed.
Lemma entered_addAll (c : list nat) : forall i, entered (didAddAll i c [DidChange]) = c /\ CallbackSpec.left (didAddAll i c [DidChange]) = [].
Proof. induction c as [|x c IH]; intro i; cbn; [auto|]. destruct (IH (i + 1)) as [-> E]. auto. Qed.
Lemma effect_insertAll l n c i : effect l (insert_all_at n c l) (didAddAll i c [DidChange]).
Proof.
  split; [left; apply didAddAll_adds; repeat constructor|]. destruct (entered_addAll c i) as [-> ->].
  rewrite app_nil_r. unfold insert_all_at.
  rewrite <- (firstn_skipn n l) at 1. rewrite <- app_assoc. apply Permutation_app_head. apply Permutation_app_comm.
Qed.
Lemma effect_remove l n x i : nth_error l n = Some x -> effect l (delete_at n l) [DidRemove i x; DidChange].
Proof.
  intro H. split; [right; left; repeat constructor|]. cbn [entered CallbackSpec.left]. rewrite app_nil_r.
  rewrite (firstn_skipn_nth _ _ _ H) at 1. unfold delete_at, delete_range. rewrite Nat.add_1_r.
  rewrite <- app_assoc. apply Permutation_app_head. apply Permutation_cons_append.
Qed.
Lemma effect_set l n e x i : nth_error l n = Some x -> effect l (replace_at n e l) [DidSet i e x; DidChange].
Proof.
  intro H. unfold replace_at. rewrite ?Nat.add_1_r. split.
  - right; right; left. exists i, e, x. split; [reflexivity|]. apply in_or_app. right. now left.
  - cbn [entered CallbackSpec.left]. rewrite (firstn_skipn_nth _ _ _ H) at 1. rewrite <- !app_assoc. apply Permutation_app_head.
    cbn. transitivity (x :: e :: skipn (S n) l); [constructor; symmetry; apply Permutation_cons_append|].
    etransitivity; [apply perm_swap|]. constructor. apply Permutation_cons_append.
Qed.
Lemma effect_clear l : effect l [] [DidClear l].
Proof. split; [right; right; right; eauto|]. cbn. rewrite !app_nil_r. reflexivity. Qed.
Lemma effect_removes l l' l'' cb cb' : Forall is_remove cb -> Forall is_remove cb' -> effect l l' cb -> effect l' l'' cb' ->
  effect l l'' (cb ++ cb').
Proof.
  intros F F' [_ P] [_ P']. split; [right; left; apply Forall_app; auto|].
  rewrite (is_remove_entered cb F), app_nil_r in P. rewrite (is_remove_entered cb' F'), app_nil_r in P'.
  rewrite (is_remove_entered (cb ++ cb')), app_nil_r by (apply Forall_app; auto).
  transitivity (l' ++ CallbackSpec.left cb); [exact P|].
  transitivity ((l'' ++ CallbackSpec.left cb') ++ CallbackSpec.left cb); [now apply Permutation_app_tail|].
  rewrite <- app_assoc. apply Permutation_app_head.
  assert (El : forall c : list (callback nat), forall c', CallbackSpec.left (c ++ c') = CallbackSpec.left c ++ CallbackSpec.left c').
  { induction c as [|x c IH]; intro c'; [reflexivity|]. destruct x; cbn; rewrite ?IH; auto. now rewrite <- app_assoc. }
  rewrite El. apply Permutation_app_comm.
Qed.

(** the callbacks of a store-backed list *)
Definition reports (l l' : list nat) (cb : list (scallback nat)) : Prop :=
  exists cb0, cb = map CB cb0 /\ effect l l' cb0.

Lemma perform_reports {X} (s : slist nat) l fd fs (dflt : X) ns s' x cb l' :
  holds s l -> perform s fd fs dflt ns = Some (s', x, cb) -> holds s' l' ->
  (forall d x0 c, fd l = Some (d, x0, c) -> effect l d c) ->
  (forall d x0 c, fs l = Some (d, x0, c) -> reports l d c) ->
  reports l l' cb.
Proof.
  intros (Hd & Ht & Hs) E H' Fd Fs. unfold perform in E. destruct s as [d t c z]; cbn in *.
  destruct Hd as [->|(-> & -> & _)].
  - destruct (fd l) as [[[d' x0] c0]|] eqn:E1; [|discriminate]. cbn [obind] in E.
    destruct (match t with Some _ => _ | None => _ end) as [t'|]; [|discriminate]. cbn [obind] in E.
    injection E as <- <- <-. exists c0. split; [reflexivity|].
    destruct H' as ([Hd'|(Hd' & _)] & _); cbn in Hd'; [|discriminate]. injection Hd' as <-. exact (Fd _ _ _ eq_refl).
  - destruct (fs l) as [[[d' x0] c0]|] eqn:E1; [|discriminate]. cbn [obind] in E.
    injection E as <- <- <-.
    destruct H' as ([Hd'|(_ & Hd' & _)] & _); cbn in Hd'; [discriminate|]. injection Hd' as <-. exact (Fs _ _ _ eq_refl).
Qed.

Lemma performRemove_reports (s : slist nat) l i s' x cb l' :
  holds s l -> performRemove 0%nat s i = Some (s', x, cb) -> holds s' l' ->
  exists cb0, cb = map CB cb0 /\ Forall is_remove cb0 /\ effect l l' cb0.
Proof.
  intros H E H'. unfold performRemove, perform in E. destruct s as [d t c z]; cbn in *.
  destruct H as (Hd & Ht & _). cbn in Hd, Ht.
  assert (Hr : forall i0 x0, st_get l i0 = Some x0 -> effect l (delete_at (Z.to_nat i0) l) [DidRemove i0 x0; DidChange]).
  { intros i0 x0 Hz. apply effect_remove. now apply st_get_some. }
  destruct Hd as [->|(-> & -> & _)].
  - rewrite (doRemove_cases Nat.eqb 0%nat Nat.eqb_spec) in E. destruct (st_get l i) as [y|] eqn:G; cbn [obind] in E; [|discriminate].
    destruct (match t with Some _ => _ | None => _ end) as [t'|]; [|discriminate]. cbn [obind] in E.
    injection E as <- <- <-. exists [DidRemove i y; DidChange]. split; [reflexivity|]. split; [repeat constructor|].
    destruct H' as ([Hd'|(Hd' & _)] & _); cbn in Hd'; [|discriminate]. injection Hd' as <-.
    now apply Hr.
  - rewrite st_remove_eq in E. destruct (st_get l i) as [y|] eqn:G; cbn [obind option_map] in E; [|discriminate].
    injection E as <- <- <-. exists [DidRemove i y; DidChange]. split; [reflexivity|]. split; [repeat constructor|].
    destruct H' as ([Hd'|(_ & Hd' & _)] & _); cbn in Hd'; [discriminate|]. injection Hd' as <-.
    now apply Hr.
Qed.

Lemma performRemove_holds (s : slist nat) l i s' x cb : holds s l -> performRemove 0%nat s i = Some (s', x, cb) ->
  exists l', holds s' l'.
Proof.
  intros H E. pose proof (removePositions_sim Nat.eqb 0%nat Nat.eqb_spec [i] s l H) as P.
  cbn [removePositions removePositions_s] in P. rewrite E in P. cbn [obind] in P.
  destruct (doRemove 0%nat l i) as [[[l' y] c]|]; cbn [obind] in P; [|discriminate].
  destruct P as (s1 & c1 & Q & H1). injection Q as -> _. eauto.
Qed.
Lemma holds_same (s : slist nat) l l' : holds s l -> holds s l' -> l = l'.
Proof. intros H H'. rewrite <- (toArray_holds s l H). now rewrite (toArray_holds s l' H'). Qed.

Lemma removePositions_reports ps : forall (s : slist nat) l s' cb l', holds s l ->
  removePositions_s 0%nat s ps = Some (s', cb) -> holds s' l' ->
  exists cb0, cb = map CB cb0 /\ Forall is_remove cb0 /\ effect l l' cb0.
Proof.
  induction ps as [|p ps IH]; intros s l s' cb l' H E H'; cbn [removePositions_s] in E.
  - injection E as <- <-. exists []. rewrite (holds_same s l l' H H'). split; [reflexivity|]. split; [constructor|apply effect_nil].
  - destruct (performRemove 0%nat s p) as [[[s1 x] c1]|] eqn:E1; [|discriminate]. cbn [obind] in E.
    destruct (removePositions_s 0%nat s1 ps) as [[s2 c2]|] eqn:E2; [|discriminate]. cbn [obind] in E. injection E as <- <-.
    destruct (performRemove_holds _ _ _ _ _ _ H E1) as [l1 H1].
    destruct (performRemove_reports _ _ _ _ _ _ _ H E1 H1) as (b1 & -> & F1 & P1).
    destruct (IH _ _ _ _ _ H1 E2 H') as (b2 & -> & F2 & P2).
    exists (b1 ++ b2). rewrite map_app. split; [reflexivity|]. split; [apply Forall_app; auto|]. exact (effect_removes _ _ _ _ _ F1 F2 P1 P2).
Qed.

Lemma insertAll_reports (s : slist nat) l i c s' ns cb l' : holds s l -> 0 <= i <= zlen l ->
  doInsertAll_s s i (fixed c) = Some (s', ns, cb) -> holds s' l' -> reports l l' cb.
Proof.
  intros H Hi E H'. pose proof (insertAll_cb Nat.eqb 0%nat Nat.eqb_spec s l i c H Hi) as C. rewrite E in C. cbn in C. injection C as ->.
  pose proof (doInsertAll_s_fixed Nat.eqb 0%nat Nat.eqb_spec s l i c H Hi) as P. rewrite E in P.
  destruct (ndoInsertAll l i c (fun _ => c)) as [[l1 ns1]|] eqn:N; [|contradiction].
  destruct P as (s1 & c1 & Q & H1). injection Q as -> _ _. rewrite (holds_same _ _ _ H' H1).
  eexists. split; [reflexivity|]. unfold ndoInsertAll in N.
  destruct c as [|x c]; [injection N as <- _; apply effect_nil|].
  rewrite doInsertAll_eq in N by assumption. cbn [obind] in N. injection N as <- _. apply effect_insertAll.
Qed.
Lemma bulk_reports unique (s : slist nat) l i c s' ns cb r l' : holds s l -> 0 <= i <= zlen l -> (unique = false -> c <> Self) ->
  bulk Nat.eqb 0%nat unique s i c = Ret (s', ns, cb) r -> holds s' l' -> reports l l' cb.
Proof.
  intros H Hi Hc E H'. unfold bulk in E. destruct unique.
  - rewrite (elems_holds Nat.eqb 0%nat Nat.eqb_spec s l c H) in E. cbn [slift] in E.
    rewrite (getNonDuplicates_holds Nat.eqb 0%nat Nat.eqb_spec s l _ H) in E. cbn [slift] in E.
    destruct (_ =? 0).
    + injection E as <- _ <- _. rewrite (holds_same _ _ _ H' H). exists []. split; [reflexivity|apply effect_nil].
    + destruct (doInsertAll_s s i _) as [[[s1 n1] c1]|] eqn:D; [|discriminate]. cbn in E. injection E as <- _ <- _.
      exact (insertAll_reports _ _ _ _ _ _ _ _ H Hi D H').
  - destruct c as [xs|]; [|exfalso; now apply Hc]. cbn [source_of] in E.
    destruct (doInsertAll_s s i _) as [[[s1 n1] c1]|] eqn:D; [|discriminate]. cbn in E. injection E as <- _ <- _.
    exact (insertAll_reports _ _ _ _ _ _ _ _ H Hi D H').
Qed.

Definition range_ok_s (s : slist nat) (o : sop nat) : Prop :=
  match o with N (L (RemoveRange i j)) => data s <> None \/ i = j | _ => True end.

Lemma indexOf_some l e : indexOf Nat.eqb l e <> -1 -> exists n, nth_error l n = Some e /\ indexOf Nat.eqb l e = Z.of_nat n.
Proof.
  unfold indexOf. rewrite (indexOf_from_spec Nat.eqb). destruct (first_pos Nat.eqb l e) as [n|] eqn:F; [|congruence].
  intros _. exists n. split; [apply (first_pos_some Nat.eqb Nat.eqb_spec _ _ _ F)|lia].
Qed.
Lemma doMove_effect l i j d x c : doMove l i j = Some (d, x, c) -> 
  Permutation l d /\ Forall is_add c /\ entered c = [] /\ CallbackSpec.left c = [].
Proof.
  intro D. assert (exists y, st_get l i = Some y) as (y & G).
  { unfold doMove in D. rewrite <- (st_get_zget Nat.eqb 0%nat Nat.eqb_spec) in D. destruct (st_get l i); [eauto|discriminate]. }
  apply st_get_some in G as [G Hi].
  destruct (Z.leb_spec 0 j); [destruct (Z.ltb_spec j (zlen l))|].
  - rewrite (doMove_eq l i j y) in D by (assumption || lia). injection D as <- _ <-. split; [|destruct (i =? j); repeat split; repeat constructor].
    destruct (effect_remove l _ y 0 G) as [_ P1]. cbn in P1. rewrite app_nil_r in P1.
    destruct (effect_insert (delete_at (Z.to_nat i) l) (Z.to_nat j) y 0) as [_ P2]. cbn in P2. rewrite app_nil_r in P2.
    etransitivity; eassumption.
  - rewrite doMove_bad in D by lia. discriminate.
  - rewrite doMove_bad in D by lia. discriminate.
Qed.
Lemma sstep_reports unique (s : slist nat) l o s' ns cb r l' : holds s l -> sop_ok Nat.eqb unique l o -> range_ok_s s o ->
  sstep Nat.eqb 0%nat unique s o = Ret (s', ns, cb) r -> holds s' l' -> reports l l' cb.
Proof.
  intros H Hok Hr E H'. pose proof (size_holds s l H) as Hz. pose proof (zlen_nonneg l) as Hpos.
  assert (Hnil : forall s1, Ret (s, ns, []) r = Ret (s', ns, cb) s1 -> reports l l' cb).
  { intros s1 Q. injection Q as <- <- _. rewrite (holds_same _ _ _ H' H). exists []. split; [reflexivity|apply effect_nil]. }
  assert (Hadd : forall e x c, performAdd s e = Some (s', x, c) -> reports l l' c).
  { intros e x c P. apply (perform_reports s l _ _ _ _ _ _ _ l' H P H').
    - intros d x0 c0 Q. cbn in Q. injection Q as <- _ <-. 
      replace (l ++ [e]) with (insert_at (length l) e l); [apply effect_insert|].
      unfold insert_at. now rewrite firstn_all, skipn_all.
    - intros d x0 c0 Q. rewrite (st_add_eq Nat.eqb Nat.eqb_spec) in Q by lia. cbn in Q. injection Q as <- _ <-.
      eexists [_; _]. split; [reflexivity|]. apply effect_insert. }
  assert (Hrem : forall i x c, performRemove 0%nat s i = Some (s', x, c) -> reports l l' c).
  { intros i x c P. destruct (performRemove_reports _ _ _ _ _ _ _ H P H') as (c0 & -> & _ & P0). now exists c0. }
  assert (Hset : forall i e x c, performSet 0%nat s i e = Some (s', x, c) -> reports l l' c).
  { intros i e x c P. apply (perform_reports s l _ _ _ _ _ _ _ l' H P H').
    - intros d x0 c0 Q. rewrite (doSet_cases Nat.eqb 0%nat Nat.eqb_spec) in Q. destruct (st_get l i) as [y|] eqn:G; [|discriminate].
      cbn in Q. injection Q as <- _ <-. apply effect_set. now apply st_get_some.
    - intros d x0 c0 Q. rewrite st_set_eq in Q. destruct (st_get l i) as [y|] eqn:G; [|discriminate].
      cbn in Q. injection Q as <- _ <-. eexists [_; _]. split; [reflexivity|]. apply effect_set. now apply st_get_some. }
  assert (Hmove : forall i j x c, performMove 0%nat s i j = Some (s', x, c) -> reports l l' c).
  { intros i j x c P. apply (perform_reports s l _ _ _ _ _ _ _ l' H P H').
    - intros d x0 c0 Q. destruct (doMove_effect _ _ _ _ _ _ Q) as (P1 & F & E1 & E2). split; [now left|].
      rewrite E1, E2, !app_nil_r. exact P1.
    - intros d x0 c0 Q. pose proof (move_agree Nat.eqb 0%nat Nat.eqb_spec l i j) as A. 
      destruct (st_move l i j) as [[t y]|]; [|discriminate]. cbn in Q, A. injection Q as <- _ <-.
      destruct (doMove l i j) as [[[d1 y1] c1]|] eqn:D; [|contradiction]. destruct A as [<- _].
      destruct (doMove_effect _ _ _ _ _ _ D) as (P1 & _). eexists [_; _]. split; [reflexivity|]. split; [left; repeat constructor|].
      cbn. rewrite !app_nil_r. exact P1. }
  destruct o as [o|b|st]; [destruct o as [o|e|e|i e]; [destruct o|..]|..]; cbn [sstep] in E; cbv zeta in E;
    repeat match type of E with
    | (if ?b then _ else _) = _ => destruct b eqn:?; try discriminate E
    end;
    try solve [unfold sret in E; injection E as <- _ <- _; rewrite (holds_same _ _ _ H' H); exists []; split; [reflexivity|apply effect_nil]].
  - destruct (performAdd s e) as [[[s1 x] c]|] eqn:P; [|discriminate]. cbn in E. injection E as <- _ <- _. exact (Hadd _ _ _ P).
  - apply (bulk_reports unique s l (size s) c s' ns cb r l' H); auto; [lia|]. cbn in Hok. destruct unique; congruence.
  - destruct (performInsert 0%nat s i e) as [[[s1 x] c]|] eqn:P; [|discriminate]. cbn in E. injection E as <- _ <- _.
    assert (0 <= i <= zlen l) by lia.
    apply (perform_reports s l _ _ _ _ _ _ _ l' H P H').
    + intros d x0 c0 Q. rewrite doInsert_eq in Q by lia. cbn in Q. injection Q as <- _ <-. apply effect_insert.
    + intros d x0 c0 Q. rewrite (st_add_eq Nat.eqb Nat.eqb_spec) in Q by lia. cbn in Q. injection Q as <- _ <-.
      eexists [_; _]. split; [reflexivity|]. apply effect_insert.
  - apply (bulk_reports unique s l i c s' ns cb r l' H); auto; [lia|]. cbn in Hok. destruct unique; congruence.
  - destruct (performMove _ _ _ _) as [[[s1 x] c]|] eqn:P; [|discriminate]. cbn in E. injection E as <- _ <- _. exact (Hmove _ _ _ _ P).
  - destruct (performMove _ _ _ _) as [[[s1 x] c]|] eqn:P; [|discriminate]. cbn in E. injection E as <- _ <- _. exact (Hmove _ _ _ _ P).
  - destruct (performRemove _ _ _) as [[[s1 x] c]|] eqn:P; [|discriminate]. cbn in E. injection E as <- _ <- _. exact (Hrem _ _ _ P).
  - destruct (performRemove _ _ _) as [[[s1 x] c]|] eqn:P; [|discriminate]. cbn in E. injection E as <- _ <- _. exact (Hrem _ _ _ P).
  - destruct (performRemoveRange _ _ _) as [[[s1 x] c]|] eqn:P; [|discriminate]. cbn in E. injection E as <- _ <- _.
    cbn in Hr. destruct (data s) as [d|] eqn:Ed.
    + unfold performRemoveRange, perform in P. rewrite Ed in P.
      assert (d = l) by (destruct H as ([Q|(Q & _)] & _); congruence). subst d.
      destruct (doRemoveRange l i j) as [[[d' x0] c0]|] eqn:D; [|discriminate]. cbn [obind] in P.
      destruct (match store s with Some _ => _ | None => _ end) as [t'|]; [|discriminate]. cbn [obind] in P.
      injection P as <- <- <-. exists c0. split; [reflexivity|].
      destruct H' as ([Hd'|(Hd' & _)] & _); cbn in Hd'; [|discriminate]. injection Hd' as <-.
      apply (effect_step l (RemoveRange i j) d' c0 RUnit). cbn [step]. rewrite <- Hz.
      repeat match goal with X : _ = false |- context [if ?b then _ else _] => rewrite X end. rewrite D. reflexivity.
    + destruct Hr as [Hr| ->]; [congruence|]. unfold performRemoveRange, perform in P. rewrite Ed in P.
      assert (Es : store s = Some l) by (destruct H as ([Q|(_ & Q & _)] & _); congruence). rewrite Es in P.
      replace (Z.to_nat (j - j)) with 0%nat in P by lia. cbn in P. injection P as <- <- <-.
      destruct H' as ([Hd'|(_ & Hd' & _)] & _); cbn in Hd'; [discriminate|]. injection Hd' as <-.
      exists [DidChange]. split; [reflexivity|]. split; [left; repeat constructor|reflexivity].
  - rewrite (elems_holds Nat.eqb 0%nat Nat.eqb_spec s l c H) in E. cbn [slift] in E.
    destruct (match elems l c with [] => _ | _ => _ end) as [its|]; [|discriminate]. cbn [slift] in E.
    destruct (removePositions_s 0%nat s _) as [[s1 c1]|] eqn:P; [|discriminate]. cbn [slift] in E.
    assert (Q : s1 = s' /\ c1 = cb) by (destruct (scanRemoved _ _ _ _) as [|[? ?] ?]; cbn in E; injection E; auto).
    destruct Q as [-> ->]. destruct (removePositions_reports _ _ _ _ _ _ H P H') as (c0 & -> & _ & P0). now exists c0.
  - destruct (get 0%nat s i); [|discriminate]. cbn in E. injection E as <- _ <- _. rewrite (holds_same _ _ _ H' H). exists []. split; [reflexivity|apply effect_nil].
  - destruct (performSet _ _ _ _) as [[[s1 x] c]|] eqn:P; [|discriminate]. cbn in E. injection E as <- _ <- _. exact (Hset _ _ _ _ P).
  - destruct (performClear s) as [[[s1 x] c]|] eqn:P; [|discriminate]. cbn in E. injection E as <- _ <- _.
    apply (perform_reports s l _ _ _ _ _ _ _ l' H P H').
    + intros d x0 c0 Q. injection Q as <- _ <-. apply effect_clear.
    + intros d x0 c0 Q. injection Q as <- _ <-. eexists [_]. split; [reflexivity|]. apply effect_clear.
  - destruct (performAdd s e) as [[[s1 x] c]|] eqn:P; [|discriminate]. cbn in E. injection E as <- _ <- _. exact (Hadd _ _ _ P).
  - destruct (performRemove _ _ _) as [[[s1 x] c]|] eqn:P; [|discriminate]. cbn in E. injection E as <- _ <- _. exact (Hrem _ _ _ P).
  - destruct (performSet _ _ _ _) as [[[s1 x] c]|] eqn:P; [|discriminate]. cbn in E. injection E as <- _ <- _. exact (Hset _ _ _ _ P).
  - injection E as <- _ <- _. rewrite (holds_same _ _ _ H' (setCache_holds s l b H)). exists []. split; [reflexivity|apply effect_nil].
  - injection E as <- _ <- _. rewrite (holds_same _ _ _ H' (setEStore_holds s l st H Hok)). exists []. split; [reflexivity|apply effect_nil].
Qed.

Section StoreMapProofs.
  Context {K V : Type} (keqb : K -> K -> bool) (veqb : V -> V -> bool).
  Hypothesis keqb_ok : forall a b, reflect (a = b) (keqb a b).
  Context (unique : bool).
  Notation smap := (smap K V).
  Implicit Types s : smap.

  (** the map's data follow the list *)
  Lemma agree_effect (s : emap K V) m l d cb : effect l d cb -> distinct s l -> distinct s d -> agree s m l ->
    agree s (fold_left (didCallback keqb s) cb m) d.
  Proof.
    intros [Kd P] D D' A. destruct Kd as [Ka|[Kr|[(i & new & old & -> & Hin)|(l0 & -> & ->)]]].
    - rewrite (is_add_left cb Ka), app_nil_r in P.
      apply (agree_perm s _ _ _ P). apply (agree_adds keqb keqb_ok); [exact Ka| |exact A]. exact (distinct_perm s _ _ (Permutation_sym P) D').
    - rewrite (is_remove_entered cb Kr), app_nil_r in P.
      apply (agree_removes keqb keqb_ok); [exact Kr| |]; [exact (distinct_perm s _ _ P D) | exact (agree_perm s _ _ _ P A)].
    - cbn [entered CallbackSpec.left] in P. cbn [fold_left didCallback].
      destruct (Nat.eq_dec new old) as [->|Nno].
      + apply Permutation_app_inv_r in P.
        destruct (in_split _ _ Hin) as (l1 & l2 & E').
        assert (P1 : Permutation d (old :: l1 ++ l2)) by (rewrite E'; symmetry; apply Permutation_middle).
        apply (agree_perm s _ _ _ (Permutation_sym P1)). apply (agree_add keqb keqb_ok); [exact (distinct_perm s _ _ P1 D')|].
        apply (agree_remove keqb keqb_ok); [exact (distinct_perm s _ _ P1 D')|].
        apply (agree_perm s _ _ _ P1). exact (agree_perm s _ _ _ P A).
      + assert (In old (l ++ [new])) by (eapply Permutation_in; [symmetry; exact P | apply in_or_app; right; now left]).
        apply in_app_iff in H as [H|[H|[]]]; [|congruence].
        destruct (in_split _ _ H) as (l1 & l2 & E').
        assert (P1 : Permutation l (old :: l1 ++ l2)) by (rewrite E'; symmetry; apply Permutation_middle).
        assert (P2 : Permutation d (new :: l1 ++ l2)).
        { apply (Permutation_app_inv_r [old]). transitivity (l ++ [new]); [symmetry; exact P|].
          transitivity ((old :: l1 ++ l2) ++ [new]); [now apply Permutation_app_tail|].
          cbn. transitivity (old :: new :: l1 ++ l2); [constructor; symmetry; apply Permutation_cons_append|].
          etransitivity; [apply perm_swap|]. constructor. apply Permutation_cons_append. }
        apply (agree_perm s _ _ _ (Permutation_sym P2)). apply (agree_add keqb keqb_ok); [exact (distinct_perm s _ _ P2 D')|].
        apply (agree_remove keqb keqb_ok); [exact (distinct_perm s _ _ P1 D)|]. exact (agree_perm s _ _ _ P1 A).
    - cbn. exact I.
  Qed.

  Definition sinv s : Prop := exists l, holds (slist_of s) l /\ inv (cells s l).
  Lemma contents_holds s l : holds (slist_of s) l -> contents s = l.
  Proof. apply toArray_holds. Qed.
  Lemma pairs_view s : pairs s = view (cells s (contents s)).
  Proof. reflexivity. Qed.

  Lemma fold_did s cb m : fold_left (didStore keqb s) (map CB cb) (Some m) = Some (fold_left (didCallback keqb (cells s [])) cb m).
  Proof. revert m. induction cb as [|c cb IH]; intro m; cbn [map fold_left]; [reflexivity|]. cbn [didStore]. apply IH. Qed.

  (** an operation of the list within the limits *)
  Lemma slistStep_inv s o s' r : sinv s -> sop_ok Nat.eqb unique (contents s) o -> range_ok s o ->
    slistStep keqb unique s o = Some (s', r) -> NoDup (map fst (pairs s')) -> (forall e, In e (contents s') -> (e < snext s)%nat) ->
    sinv s' /\ seq_step Nat.eqb unique (contents s) o = Some (contents s', r)
    /\ skeyOf s' = skeyOf s /\ svalOf s' = svalOf s /\ snext s' = snext s.
  Proof.
    intros (l & H & (D & A & Hn)) Hok Hr E D' Hn'. rewrite (contents_holds s l H) in *.
    unfold slistStep in E. pose proof (sstep_seq Nat.eqb 0%nat Nat.eqb_spec unique (slist_of s) l o H Hok) as P.
    destruct (sstep Nat.eqb 0%nat unique (slist_of s) o) as [[[sl ns] cb] r0|] eqn:St; [|discriminate].
    destruct (seq_step Nat.eqb unique l o) as [[l' r1]|]; [|contradiction]. destruct P as [H' <-].
    destruct (sstep_reports unique (slist_of s) l o sl ns cb r0 l' H Hok Hr St H') as (cb0 & -> & Ef).
    rewrite fold_did in E. cbn [obind] in E. injection E as <- <-. cbn in *.
    unfold contents in *. cbn in *. rewrite (toArray_holds sl l' H') in *.
    unfold pairs, contents in D'. cbn in D'. rewrite (toArray_holds sl l' H'), map_map in D'. cbn in D'.
    split; [|auto]. exists l'. split; [exact H'|]. split; [exact D'|]. split; [|exact Hn'].
    cbn. exact (agree_effect (cells s []) _ _ _ _ Ef D D' A).
  Qed.

  (** the operations of the map are those of [MapModel] on the entries *)
  Lemma list_add s l e : holds (slist_of s) l -> ~ In e l ->
    exists sl, slistStep keqb unique s (N (L (Add e)))
      = Some (of_cells sl (mkMap (l ++ [e]) (fold_left (didCallback keqb (cells s [])) [DidAdd (zlen l) e; DidChange] (smapData s)) (skeyOf s) (svalOf s) (snext s)), RBool true)
      /\ holds sl (l ++ [e]).
  Proof.
    intros H Nin. unfold slistStep.
    pose proof (sstep_seq Nat.eqb 0%nat Nat.eqb_spec unique (slist_of s) l (N (L (Add e))) H I) as P.
    cbn [sstep seq_step spec_step] in P |- *. rewrite (contains_holds Nat.eqb Nat.eqb_spec _ _ e H) in P |- *.
    rewrite (contains_member Nat.eqb Nat.eqb_spec) in P |- *. rewrite (proj2 (member_not_in _ Nat.eqb_spec _ _) Nin), andb_false_r in P |- *.
    pose proof (size_holds (slist_of s) l H) as Hz. pose proof (zlen_nonneg l) as Hpos.
    unfold performAdd in *.
    pose proof (perform_sim (slist_of s) l (fun d => let? (d', cb) := doAdd d e in Some (d', tt, cb))
      (fun t => let? t' := st_add t (size (slist_of s)) e in Some (t', tt, [CB (DidAdd (size (slist_of s)) e); CB DidChange]))
      tt (fun _ => size (slist_of s) + 1) H (add_agree Nat.eqb Nat.eqb_spec (slist_of s) l e H)) as Q.
    cbv beta in Q. change (doAdd l e) with (Some (l ++ [e], [DidAdd (zlen l) e; DidChange])) in Q. cbn [obind] in Q.
    destruct Q as (sl & cbs & Q & _ & Ecb). rewrite Q in P |- *. cbn [slift sret] in P |- *.
    rewrite Ecb by (rewrite Hz; rewrite (st_add_eq Nat.eqb Nat.eqb_spec) by lia; reflexivity).
    change [CB (DidAdd (zlen l) e); CB DidChange] with (map (@CB nat) [DidAdd (zlen l) e; DidChange]).
    rewrite fold_did. cbn [obind]. exists sl. split; [reflexivity|]. exact (proj1 P).
  Qed.
  Lemma list_remove s l e n : holds (slist_of s) l -> first_pos Nat.eqb l e = Some n ->
    exists sl, slistStep keqb unique s (N (L (Remove e)))
      = Some (of_cells sl (mkMap (delete_at n l) (fold_left (didCallback keqb (cells s [])) [DidRemove (Z.of_nat n) e; DidChange] (smapData s)) (skeyOf s) (svalOf s) (snext s)), RBool true)
      /\ holds sl (delete_at n l).
  Proof.
    intros H F. unfold slistStep.
    pose proof (sstep_seq Nat.eqb 0%nat Nat.eqb_spec unique (slist_of s) l (N (L (Remove e))) H I) as P.
    destruct (first_pos_some Nat.eqb Nat.eqb_spec _ _ _ F) as [Hn _].
    assert (Ei : indexOf_s Nat.eqb (slist_of s) e = Z.of_nat n).
    { rewrite (indexOf_holds Nat.eqb _ l e H). unfold indexOf. rewrite (indexOf_from_spec Nat.eqb), F. lia. }
    cbn [sstep seq_step spec_step] in P |- *. rewrite F in P. rewrite Ei in P |- *.
    destruct (Z.eqb_spec (Z.of_nat n) (-1)); [lia|].
    unfold performRemove in *.
    pose proof (perform_sim (slist_of s) l (fun d => doRemove 0%nat d (Z.of_nat n))
      (fun t => let? (t', x) := st_remove t (Z.of_nat n) in Some (t', x, [CB (DidRemove (Z.of_nat n) x); CB DidChange]))
      0%nat (fun _ => size (slist_of s) - 1) H (remove_agree Nat.eqb 0%nat Nat.eqb_spec l (Z.of_nat n))) as Q.
    cbv beta in Q. rewrite (doRemove_eq 0%nat l (Z.of_nat n) e) in Q by (rewrite ?Nat2Z.id; auto; lia).
    destruct Q as (sl & cbs & Q & _ & Ecb). rewrite Q in P |- *. cbn [slift sret] in P |- *.
    rewrite Ecb.
    - rewrite fold_did. cbn [obind]. exists sl. split; [reflexivity|]. exact (proj1 P).
    - rewrite st_remove_eq. unfold st_get. rewrite Nat2Z.id, Hn.
      assert (Z.of_nat n < zlen l) by (assert (n < length l)%nat by (apply nth_error_Some; congruence); unfold zlen; lia).
      destruct (Z.leb_spec 0 (Z.of_nat n)); [|lia]. destruct (Z.ltb_spec (Z.of_nat n) (zlen l)); [|lia]. reflexivity.
  Qed.

  Definition is_list_op (o : mop K V) : Prop := match o with MList _ => True | _ => False end.
  Lemma smstep_mstep s l o (s1 : emap K V) r : holds (slist_of s) l -> inv (cells s l) -> ~ is_list_op o ->
    mstep keqb veqb (cells s l) o = Some (s1, r) ->
    exists sl, smstep keqb veqb unique s (SMap o) = Some (of_cells sl s1, r) /\ holds sl (elist s1).
  Proof.
    intros H I0 Ho M. destruct o as [o|k v|e k|e v|k v|k|k|k|v]; [elim Ho; exact I|..]; cbn [smstep mstep] in *.
    - injection M as <- <-. eexists. split; [reflexivity|exact H].
    - injection M as <- <-. eexists. split; [reflexivity|exact H].
    - injection M as <- <-. eexists. split; [reflexivity|exact H].
    - unfold sgetEntryForKey. rewrite (toArray_holds _ _ H).
      destruct (getEntryForKey keqb (cells s l) k) as [e|] eqn:G.
      + injection M as <- <-. eexists. split; [reflexivity|exact H].
      + assert (Nin : ~ In (snext s) l) by (intro Q; destruct I0 as (_ & _ & Hn); specialize (Hn _ Q); cbn in Hn; lia).
        set (s2 := of_cells (slist_of s) (newEntry (cells s []) k v)).
        destruct (list_add s2 l (snext s) H Nin) as (sl & -> & H'). cbn [obind].
        unfold listStep in M. change (elist (newEntry (cells s l) k v)) with l in M. change (next (cells s l)) with (snext s) in M. cbn [step] in M.
        rewrite (contains_member Nat.eqb Nat.eqb_spec), (proj2 (member_not_in _ Nat.eqb_spec _ _) Nin) in M.
        cbn [andb doAdd lift ret obind] in M. injection M as <- <-. exists sl. split; [reflexivity|exact H'].
    - unfold sgetEntryForKey. rewrite (toArray_holds _ _ H).
      destruct (getEntryForKey keqb (cells s l) k) as [e|] eqn:G.
      + apply (getEntry_some keqb keqb_ok) in G as [He Hk]. cbn in He.
        destruct (first_pos Nat.eqb l e) as [n|] eqn:F; [|apply (first_pos_none Nat.eqb Nat.eqb_spec) in F; tauto].
        destruct (list_remove s l e n H F) as (sl & -> & H'). cbn [obind].
        unfold listStep in M. change (elist (cells s l)) with l in M. cbn [step] in M.
        destruct (first_pos_some Nat.eqb Nat.eqb_spec _ _ _ F) as [Hn _].
        unfold indexOf in M. rewrite (indexOf_from_spec Nat.eqb), F in M.
        replace (0 + Z.of_nat n) with (Z.of_nat n) in M by lia. destruct (Z.eqb_spec (Z.of_nat n) (-1)); [lia|].
        rewrite (doRemove_eq 0%nat l (Z.of_nat n) e) in M by (rewrite ?Nat2Z.id; auto; lia).
        cbn [lift ret obind] in M. rewrite Nat2Z.id in M. injection M as <- <-. exists sl. split; [reflexivity|exact H'].
      + injection M as <- <-. eexists. split; [|exact H]. destruct s; reflexivity.
    - unfold sinitDataMap. rewrite (items_holds Nat.eqb 0%nat Nat.eqb_spec _ l H). injection M as <- <-.
      exists (slist_of s). split; [|exact H]. unfold initDataMap, cells. cbn. destruct (smapData s) eqn:Em; cbn; rewrite ?Em; reflexivity.
    - unfold sinitDataMap. rewrite (items_holds Nat.eqb 0%nat Nat.eqb_spec _ l H). injection M as <- <-.
      exists (slist_of s). split; [|exact H]. unfold initDataMap, cells. cbn. destruct (smapData s) eqn:Em; cbn; rewrite ?Em; reflexivity.
    - rewrite (items_holds Nat.eqb 0%nat Nat.eqb_spec _ l H). injection M as <- <-.
      exists (slist_of s). split; [|exact H]. destruct s; reflexivity.
  Qed.

  Lemma drop_inv s : sinv s -> sinv (mkSMap (slist_of s) None (skeyOf s) (svalOf s) (snext s)).
  Proof. intros (l & H & (D & _ & Hn)). exists l. split; [exact H|]. split; [exact D|]. split; [exact I|exact Hn]. Qed.

  Lemma listop_step s o l : sinv s -> listop o = Some l -> sdisciplined_op keqb veqb unique s o ->
    forall s' r, smstep keqb veqb unique s o = Some (s', r) ->
    exists r0, r = ROp r0 /\ sinv s' /\ seq_step Nat.eqb unique (contents s) l = Some (contents s', r0)
               /\ skeyOf s' = skeyOf s /\ svalOf s' = svalOf s /\ snext s' = snext s.
  Proof.
    intros Hi Hl Hd s' r E. unfold sdisciplined_op in Hd. rewrite Hl in Hd. destruct Hd as (Hok & Hr & Hd).
    destruct (Hd s' r E) as [D' N']. destruct o as [o|o]; cbn in Hl.
    - injection Hl as <-. destruct o as [o|b|st]; cbn [smstep] in E.
      + destruct (slistStep keqb unique s (N o)) as [[s1 r1]|] eqn:St; [|discriminate]. injection E as <- <-.
        exists r1. split; [reflexivity|]. exact (slistStep_inv s (N o) s1 r1 Hi Hok Hr St D' N').
      + set (s0 := mkSMap (slist_of s) None (skeyOf s) (svalOf s) (snext s)) in *.
        destruct (slistStep keqb unique s0 (SetCache b)) as [[s1 r1]|] eqn:St; [|discriminate]. injection E as <- <-.
        exists r1. split; [reflexivity|]. exact (slistStep_inv s0 (SetCache b) s1 r1 (drop_inv s Hi) Hok Hr St D' N').
      + destruct (slistStep keqb unique s (SetEStore st)) as [[s1 r1]|] eqn:St; [|discriminate]. injection E as <- <-.
        exists r1. split; [reflexivity|]. exact (slistStep_inv s (SetEStore st) s1 r1 Hi Hok Hr St D' N').
    - destruct o; try discriminate. injection Hl as <-. cbn [smstep] in E.
      destruct (slistStep keqb unique s (N (L o))) as [[s1 r1]|] eqn:St; [|discriminate]. injection E as <- <-.
      exists r1. split; [reflexivity|]. exact (slistStep_inv s (N (L o)) s1 r1 Hi Hok Hr St D' N').
  Qed.

  Lemma of_cells_inv sl (m : emap K V) : holds sl (elist m) -> inv m -> sinv (of_cells sl m) /\ pairs (of_cells sl m) = view m.
  Proof.
    intros H I0. split.
    - exists (elist m). split; [exact H|]. destruct m; exact I0.
    - unfold pairs, contents. cbn. now rewrite (toArray_holds _ _ H).
  Qed.

  Lemma smstep_ok s o s' r : sinv s -> sdisciplined_op keqb veqb unique s o -> smstep keqb veqb unique s o = Some (s', r) ->
    sinv s' /\ match smap_spec keqb veqb (pairs s) o with Some (l, r') => pairs s' = l /\ r = r' | None => True end.
  Proof.
    intros Hi Hd E. destruct (listop o) as [lo|] eqn:Hl.
    - destruct (listop_step s o lo Hi Hl Hd s' r E) as (r0 & -> & Hi' & Sq & Ek & Ev & _). split; [exact Hi'|].
      destruct o as [[o|b|st]|o]; cbn in Hl.
      + exact I.
      + injection Hl as <-. cbn in Sq. injection Sq as Ec <-. cbn. unfold pairs. rewrite Ek, Ev, <- Ec. auto.
      + injection Hl as <-. cbn in Sq. injection Sq as Ec <-. cbn. unfold pairs. rewrite Ek, Ev, <- Ec. auto.
      + destruct o; try discriminate. exact I.
    - destruct o as [o|o]; [discriminate|]. assert (Ho : ~ is_list_op o) by (destruct o; cbn in *; congruence || tauto).
      destruct Hi as (l & H & I0).
      assert (Hm : exists (s1 : emap K V) r1, mstep keqb veqb (cells s l) o = Some (s1, r1)).
      { apply map_total. intros lo ->. apply Ho. exact I. }
      destruct Hm as (s1 & r1 & M). destruct (smstep_mstep s l o s1 r1 H I0 Ho M) as (sl & E' & H').
      rewrite E in E'. injection E' as -> ->.
      assert (Hd' : disciplined_op keqb (cells s l) o).
      { unfold sdisciplined_op in Hd. rewrite Hl, (contents_holds s l H) in Hd. destruct o; cbn in *; auto. discriminate. }
      destruct (mstep_ok keqb veqb keqb_ok (cells s l) o s1 r1 I0 Hd' M) as [I1 Sp].
      destruct (of_cells_inv sl s1 H' I1) as [Hi' ->]. split; [exact Hi'|].
      rewrite pairs_view, (contents_holds s l H). exact Sp.
  Qed.

  Lemma start_inv st (k : nat -> K) (v : nat -> V) n : start_ok st k n -> sinv (NewEStoreMap st k v n).
  Proof.
    intro Hs. exists (match st with Some t => t | None => [] end). split; [apply initialize_holds|].
    destruct st as [t|]; cbn in *.
    - destruct Hs as [D Hn]. split; [exact D|]. split; [exact I|exact Hn].
    - split; [constructor|]. split; [exact I|]. intros e [].
  Qed.

  Lemma sdisciplined_app h : forall s h', sdisciplined keqb veqb unique s (h ++ h') ->
    sdisciplined keqb veqb unique s h /\ forall s', smrun keqb veqb unique s h = Some s' -> sdisciplined keqb veqb unique s' h'.
  Proof.
    induction h as [|o h IH]; intros s h' H; cbn in *.
    - split; [exact I|]. intros s' Q; injection Q as <-. exact H.
    - destruct H as [H1 H2]. destruct (smstep keqb veqb unique s o) as [[s1 r1]|]; cbn.
      + destruct (IH s1 h' H2) as [H3 H4]. auto.
      + split; [auto|discriminate].
  Qed.
  Lemma srun_inv h : forall s s', sinv s -> sdisciplined keqb veqb unique s h -> smrun keqb veqb unique s h = Some s' -> sinv s'.
  Proof.
    induction h as [|o h IH]; intros s s' H D E; cbn in *.
    - now injection E as <-.
    - destruct D as [D1 D2]. destruct (smstep keqb veqb unique s o) as [[s1 r1]|] eqn:M; [|discriminate]. cbn in E.
      apply (IH s1 s'); auto. apply (smstep_ok s o s1 r1 H D1 M).
  Qed.
  Lemma reach_inv st (k : nat -> K) (v : nat -> V) n h o s : start_ok st k n -> sdisciplined keqb veqb unique (NewEStoreMap st k v n) (h ++ [o]) ->
    smrun keqb veqb unique (NewEStoreMap st k v n) h = Some s -> sinv s /\ sdisciplined_op keqb veqb unique s o.
  Proof.
    intros Hs D E. destruct (sdisciplined_app h _ [o] D) as [D1 D2]. split.
    - exact (srun_inv h _ s (start_inv st k v n Hs) D1 E).
    - specialize (D2 s E). cbn in D2. tauto.
  Qed.

  Theorem smap_operations st (k : nat -> K) (v : nat -> V) n h o s s' r l r' :
    start_ok st k n -> sdisciplined keqb veqb unique (NewEStoreMap st k v n) (h ++ [o]) ->
    smrun keqb veqb unique (NewEStoreMap st k v n) h = Some s ->
    smstep keqb veqb unique s o = Some (s', r) ->
    smap_spec keqb veqb (pairs s) o = Some (l, r') ->
    pairs s' = l /\ r = r'.
  Proof.
    intros Hs D E M Sp. destruct (reach_inv st k v n h o s Hs D E) as [Hi Hd].
    destruct (smstep_ok s o s' r Hi Hd M) as [_ Q]. rewrite Sp in Q. exact Q.
  Qed.
  Theorem smap_list_operations st (k : nat -> K) (v : nat -> V) n h o lo s s' r :
    start_ok st k n -> sdisciplined keqb veqb unique (NewEStoreMap st k v n) (h ++ [o]) ->
    smrun keqb veqb unique (NewEStoreMap st k v n) h = Some s -> listop o = Some lo ->
    smstep keqb veqb unique s o = Some (s', r) ->
    exists r0, r = ROp r0 /\ seq_step Nat.eqb unique (contents s) lo = Some (contents s', r0)
               /\ skeyOf s' = skeyOf s /\ svalOf s' = svalOf s.
  Proof.
    intros Hs D E Hl M. destruct (reach_inv st k v n h o s Hs D E) as [Hi Hd].
    destruct (listop_step s o lo Hi Hl Hd s' r M) as (r0 & H). exists r0. tauto.
  Qed.
  Lemma sstep_total s o : sinv s -> sop_ok Nat.eqb unique (contents s) o -> range_ok s o ->
    seq_step Nat.eqb unique (contents s) o <> None -> exists s' r, slistStep keqb unique s o = Some (s', r).
  Proof.
    intros (l & H & _) Hok Hr Hq. rewrite (contents_holds s l H) in *. unfold slistStep.
    pose proof (sstep_seq Nat.eqb 0%nat Nat.eqb_spec unique (slist_of s) l o H Hok) as P.
    destruct (sstep Nat.eqb 0%nat unique (slist_of s) o) as [[[sl ns] cb] r0|] eqn:St.
    - destruct (seq_step Nat.eqb unique l o) as [[l' r1]|]; [|contradiction]. destruct P as [H' <-].
      destruct (sstep_reports unique (slist_of s) l o sl ns cb r0 l' H Hok Hr St H') as (cb0 & -> & _).
      rewrite fold_did. cbn [obind]. eauto.
    - destruct (seq_step Nat.eqb unique l o); [contradiction|congruence].
  Qed.
  Theorem smap_total st (k : nat -> K) (v : nat -> V) n h o s :
    start_ok st k n -> sdisciplined keqb veqb unique (NewEStoreMap st k v n) (h ++ [o]) ->
    smrun keqb veqb unique (NewEStoreMap st k v n) h = Some s ->
    (forall lo, listop o = Some lo -> seq_step Nat.eqb unique (contents s) lo <> None) ->
    exists s' r, smstep keqb veqb unique s o = Some (s', r).
  Proof.
    intros Hs D E Hq. destruct (reach_inv st k v n h o s Hs D E) as [Hi Hd].
    destruct (listop o) as [lo|] eqn:Hl.
    - specialize (Hq lo eq_refl). unfold sdisciplined_op in Hd. rewrite Hl in Hd. destruct Hd as (Hok & Hr & _).
      destruct o as [o|o]; cbn in Hl.
      + injection Hl as <-. destruct o as [o|b|so]; cbn [smstep].
        * destruct (sstep_total s (N o) Hi Hok Hr Hq) as (s1 & r1 & ->). cbn. eauto.
        * destruct (sstep_total _ (SetCache b) (drop_inv s Hi) Hok Hr Hq) as (s1 & r1 & ->). cbn. eauto.
        * destruct (sstep_total s (SetEStore so) Hi Hok Hr Hq) as (s1 & r1 & ->). cbn. eauto.
      + destruct o; try discriminate. injection Hl as <-. cbn [smstep].
        destruct (sstep_total s (N (L o)) Hi Hok Hr Hq) as (s1 & r1 & ->). cbn. eauto.
    - destruct o as [o|o]; [discriminate|]. assert (Ho : ~ is_list_op o) by (destruct o; cbn in *; congruence || tauto).
      destruct Hi as (l & H & I0).
      assert (Hm : exists (s1 : emap K V) r1, mstep keqb veqb (cells s l) o = Some (s1, r1)).
      { apply map_total. intros lo ->. apply Ho. exact I. }
      destruct Hm as (s1 & r1 & M). destruct (smstep_mstep s l o s1 r1 H I0 Ho M) as (sl & -> & _). eauto.
  Qed.
End StoreMapProofs.
