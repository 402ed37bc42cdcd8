(** Proofs about Lock and Unlock. *)
From Verif Require Import Base ListModel NotifyModel StoreListModel StoreObjModel StoreObjSpec StoreObjProofs StoreObjStores
  StoreLockModel StoreLockSpec.

Section StoreLock.
  Context {A : Type} (eqb : A -> A -> bool) (nilv : A) (kind : nat -> fkind) (count : nat).
  Implicit Types (w : world A).

  (** each list belongs to the feature it was made for *)
  Definition tagged w : Prop :=
    forall f i, wprops w f = Some (PList i) -> exists h, nth_error (handles w) i = Some h /\ hfeat h = f.
  Lemma tagged_unshared w : tagged w -> unshared w.
  Proof. intros T f g i Hf Hg. destruct (T _ _ Hf) as (h & E & <-), (T _ _ Hg) as (h' & E' & <-). congruence. Qed.

  Lemma tagged_new st c v l : tagged (NewObject st c v l : world A).
  Proof. intros f i. discriminate. Qed.
  Lemma tagged_get w f : tagged w -> tagged (fst (wGet kind w f)).
  Proof.
    intros T. unfold wGet. destruct (wprops w f) eqn:Ep; [exact T|]. destruct (kind f) as [[|]|u].
    - exact T.
    - destruct (wstore w) as [s|]; [|exact T]. cbn. destruct (wcache w); [|exact T]. intros g i. cbn. destruct (Nat.eq_dec g f) as [->|Ne].
      + rewrite upd_eq. unfold storeGet. destruct (values w s f); discriminate.
      + rewrite upd_ne by exact Ne. apply T.
    - intros g i. cbn [fst wprops handles]. destruct (Nat.eq_dec g f) as [->|Ne].
      + rewrite upd_eq. intros [= <-]. exists (createList w f). rewrite nth_error_app2, Nat.sub_diag by lia. split; reflexivity.
      + rewrite upd_ne by exact Ne. intro H. destruct (T _ _ H) as (h & E & F). exists h. split; [|exact F].
        rewrite nth_error_app1; [exact E|]. apply nth_error_Some. congruence.
  Qed.
  Lemma tagged_on w i o w' x : tagged w -> onList eqb nilv kind w i o = Some (w', x) -> tagged w'.
  Proof.
    intros T. unfold onList. destruct (nth_error (handles w) i) as [h|] eqn:Eh; cbn -[sstep view handle_of written replace]; [|discriminate].
    destruct (kind (hfeat h)); [discriminate|]. destruct (sstep _ _ _ _ _) as [[[s ns] cb] r|]; [|discriminate].
    intros [= <- _]. intros f j H. cbn [wprops handles] in *. destruct (T _ _ H) as (h' & E & F). rewrite nth_replace.
    destruct (Nat.eqb_spec j i) as [->|_]; [|eauto]. rewrite Eh in *. injection E as ->. cbn. eexists. split; [reflexivity|]. exact F.
  Qed.
  Lemma tagged_step w o w' x : tagged w -> wstep eqb nilv kind w o = Some (w', x) -> tagged w'.
  Proof.
    intros T E. destruct o as [f|f v|f|f|c|st|i o|f o]; cbn [wstep] in E.
    - pose proof (tagged_get w f T) as G. destruct (wGet kind w f). injection E as <- _. exact G.
    - injection E as <- _. unfold wSet. destruct (kind f) as [[|]|u], (wstore w); intros g i; cbn;
        try (destruct (Nat.eq_dec g f) as [->|Ne]; [rewrite upd_eq; destruct v; discriminate|rewrite upd_ne by exact Ne; apply T]).
      destruct (wcache w); [|apply T].
      destruct (Nat.eq_dec g f) as [->|Ne]; [rewrite upd_eq; destruct v; discriminate|rewrite upd_ne by exact Ne; apply T].
    - injection E as <- _. unfold wUnset. destruct (kind f) as [[|]|u], (wstore w); intros g i; cbn;
        (destruct (Nat.eq_dec g f) as [->|Ne]; [rewrite upd_eq; discriminate|rewrite upd_ne by exact Ne; apply T]).
    - injection E as <- _. exact T.
    - injection E as <- _. unfold wSetCache. destruct (Bool.eqb (wcache w) c); [exact T|]. intros g i. cbn [wprops handles].
      destruct (wstore w); [discriminate|]. intro H. destruct (T _ _ H) as (h & Eh & F). rewrite nth_mapi, Eh. cbn.
      eexists. split; [reflexivity|]. destruct (isProperty w i h); exact F.
    - injection E as <- _. unfold wSetEStore. destruct (same_store (wstore w) st) eqn:Es; [exact T|]. destruct st as [s|]; intros g i; cbn [wprops handles].
      + destruct (wcache w); [|discriminate]. intro H. destruct (T _ _ H) as (h & Eh & F). rewrite nth_mapi, Eh. cbn.
        eexists. split; [reflexivity|]. destruct (isProperty w i h); [|exact F]. unfold hSetEStore. destruct (same_store (hstore h) (Some s)); exact F.
      + destruct (kind g) as [[|]|u]; try apply T. destruct (wstore w); [|apply T]. destruct (wcache w); [apply T|].
        unfold storeGet. destruct (values w n g); discriminate.
    - destruct (onList eqb nilv kind w i o) as [[w1 y]|] eqn:O; cbn in E; [|discriminate]. injection E as <- _. eapply tagged_on, O. exact T.
    - pose proof (tagged_get w f T) as G. destruct (wGet kind w f) as [w1 [[v|j]|]]; try discriminate. cbn in G.
      destruct (onList eqb nilv kind w1 j o) as [[w2 y]|] eqn:O; cbn in E; [|discriminate]. injection E as <- _. eapply tagged_on, O. exact G.
  Qed.
  Lemma tagged_run h : forall w w', tagged w -> snd (wrun eqb nilv kind w h) = Some w' -> tagged w'.
  Proof.
    induction h as [|o h IH]; intros w w' T; cbn; [intros [= <-]; exact T|].
    destruct (wstep eqb nilv kind w o) as [[w1 x]|] eqn:E; [|discriminate]. destruct (wrun eqb nilv kind w1 h) as [rs fin] eqn:R.
    cbn. intros ->. eapply (IH w1); [eapply tagged_step; eassumption|now rewrite R].
  Qed.

  (** Lock adds one for each list, Unlock takes one away *)
  Definition among w (l : list nat) i : Prop := exists f, List.In f l /\ wprops w f = Some (PList i).
  Lemma over_lists w d l : unshared w -> NoDup l -> forall (k : locked_by) i,
    let k' := fold_left (fun k f => match wprops w f with Some (PList i) => upd k i (k i + d) | _ => k end) l k in
    (among w l i -> k' i = k i + d) /\ (~ among w l i -> k' i = k i).
  Proof using Type. clear eqb nilv kind.
    intros U. induction l as [|f l IH]; intros D k i; cbn; [split; [intros (f & [] & _)|reflexivity]|].
    inversion D as [|? ? Hf Hl]; subst. specialize (IH Hl (match wprops w f with Some (PList i) => upd k i (k i + d) | _ => k end) i).
    cbn zeta in IH. destruct IH as [I1 I2]. destruct (wprops w f) as [[v|j]|] eqn:Ep.
    - split; [intros (g & [->|Hg] & E); [congruence|apply I1; exists g; auto]|intro N; apply I2; intros (g & Hg & E); apply N; exists g; cbn; auto].
    - destruct (Nat.eq_dec j i) as [->|Ne].
      + assert (NA : ~ among w l i). { intros (g & Hg & E). assert (g = f) by (eapply U; eassumption). subst. contradiction. }
        split; [intros _|intro N; exfalso; apply N; exists f; cbn; auto]. rewrite (I2 NA). now rewrite upd_eq.
      + split.
        * intros (g & [->|Hg] & E); [congruence|]. rewrite I1 by (exists g; auto). now rewrite upd_ne by auto.
        * intro N. rewrite I2 by (intros (g & Hg & E); apply N; exists g; cbn; auto). now rewrite upd_ne by auto.
    - split; [intros (g & [->|Hg] & E); [congruence|apply I1; exists g; auto]|intro N; apply I2; intros (g & Hg & E); apply N; exists g; cbn; auto].
  Qed.
  Lemma among_list w i : among w (seq 0 count) i <-> is_list count w i.
  Proof using Type. clear eqb nilv kind. split; intros (f & H & E); exists f; (split; [|exact E]); [apply in_seq in H; lia|apply in_seq; lia]. Qed.
  Lemma over_is w d k i : unshared w ->
    (is_list count w i -> overLists count w d k i = k i + d) /\ (~ is_list count w i -> overLists count w d k i = k i).
  Proof using Type. clear eqb nilv kind. intro U. rewrite <- among_list. exact (over_lists w d (seq 0 count) U (seq_NoDup count 0) k i). Qed.

  Lemma list_dec w i : is_list count w i \/ ~ is_list count w i.
  Proof using Type. clear eqb nilv kind.
    destruct (existsb (fun f => match wprops w f with Some (PList j) => (j =? i)%nat | _ => false end) (seq 0 count)) eqn:E.
    - left. apply existsb_exists in E as (f & Hf & E). apply in_seq in Hf. exists f. split; [lia|].
      destruct (wprops w f) as [[v|j]|]; try discriminate. apply Nat.eqb_eq in E. now subst.
    - right. intros (f & Hf & Ef). assert (C : existsb (fun f => match wprops w f with Some (PList j) => (j =? i)%nat | _ => false end) (seq 0 count) = true).
      { apply existsb_exists. exists f. split; [apply in_seq; lia|]. rewrite Ef. apply Nat.eqb_refl. }
      congruence.
  Qed.

  (** Lock in one state, Unlock in another *)
  Lemma lock_unlock w w' k i : unshared w -> unshared w' ->
    let k' := oUnlock count w' (oLock count w k) in
    (k' i = k i <-> (is_list count w i <-> is_list count w' i))
    /\ (is_list count w i -> ~ is_list count w' i -> k' i = k i + 1)
    /\ (~ is_list count w i -> is_list count w' i -> k' i = k i - 1).
  Proof using Type. clear eqb nilv kind.
    intros U U'. cbn zeta. unfold oUnlock, oLock.
    destruct (over_is w 1 k i U) as [A1 A2], (over_is w' (-1) (overLists count w 1 k) i U') as [B1 B2].
    destruct (list_dec w i) as [L|L], (list_dec w' i) as [L'|L'];
      rewrite ?(B1 L'), ?(B2 L'), ?(A1 L), ?(A2 L); repeat split; try tauto; try lia; intros; try tauto; try lia; exfalso; tauto.
  Qed.

  (** the encoder, on an object that is not in a store *)
  Lemma encodeFeatures_same fs : forall w, wstore w = None -> encodeFeatures kind w fs = w.
  Proof using Type. clear eqb nilv.
    induction fs as [|f fs IH]; intros w Hs; cbn; [reflexivity|].
    assert (E : (if wIsSet kind w f then fst (wGet kind w f) else w) = w).
    { unfold wIsSet, wGet. destruct (wprops w f); [reflexivity|]. now rewrite Hs. }
    rewrite E. now apply IH.
  Qed.
  Lemma encode_locks w fs t k i : unshared w -> wstore w = None ->
    let k' := snd (encodeObject kind count w fs t k) in
    (wcache w = false -> is_list count w i -> k' i = k i + 1)
    /\ (wcache w = true \/ ~ is_list count w i -> k' i = k i).
  Proof using Type. clear eqb nilv.
    intros U Hs. unfold encodeObject. cbn [snd]. rewrite (encodeFeatures_same fs w Hs).
    assert (P : wprops (wSetEStore kind w (Some t)) = if wcache w then wprops w else fun _ => None).
    { unfold wSetEStore. rewrite Hs. reflexivity. }
    assert (U' : unshared (wSetEStore kind w (Some t))).
    { intros f g j. rewrite P. destruct (wcache w); [apply U|discriminate]. }
    assert (Q : is_list count (wSetEStore kind w (Some t)) i <-> wcache w = true /\ is_list count w i).
    { unfold is_list. rewrite P. destruct (wcache w); split.
      - intro H. auto.
      - intros [_ H]. exact H.
      - intros (f & _ & E). discriminate.
      - intros [E _]. discriminate. }
    destruct (lock_unlock w _ k i U U') as (L1 & L2 & L3). cbn zeta in L1, L2, L3. split.
    - intros C L. apply L2; [exact L|]. rewrite Q. intros [E _]. congruence.
    - intros H. apply L1. rewrite Q. destruct H as [H|H]; tauto.
  Qed.
End StoreLock.
