(** Proofs about objects that get a store later, or another one. *)
From Verif Require Import Base ListModel ListSpec NotifyModel StoreListModel StoreListSpec StoreListProofs StoreObjModel StoreObjSpec
  StoreObjProofs StoreObjAttachSpec.

Section Attach.
  Context {A : Type} (eqb : A -> A -> bool) (nilv : A) (kind : nat -> fkind).
  Implicit Types (w : world A) (r : contents A).

  (** an object without store *)
  Definition goodN w f i (l : list A) : Prop :=
    exists h, nth_error (handles w) i = Some h /\ hfeat h = f /\ hstore h = None /\ hcache h = wcache w
              /\ hdata h = Some l /\ hsize h = zlen l.
  Definition okN w r : Prop :=
    wstore w = None /\
    forall f, match kind f with
              | Single true => True
              | Single false => wprops w f = option_map PVal (val_of r f)
              | Many _ => (wprops w f = None /\ seq_of r f = [])
                          \/ exists i, wprops w f = Some (PList i) /\ goodN w f i (seq_of r f)
              end.

  Lemma goodN_holds w h l : hstore h = None -> hdata h = Some l -> hsize h = zlen l -> holds (view (lists w) h) l.
  Proof. intros H1 H2 H3. unfold holds, view. cbn. rewrite H1, H2, H3. cbn. auto. Qed.

  Lemma createN w f : wstore w = None ->
    createList w f = Hd f (Some []) None (wcache w) 0.
  Proof. intro H. unfold createList, setCache, initialize, handle_of. rewrite H. destruct (wcache w); reflexivity. Qed.

  Lemma getN w r f : okN w r -> kind f <> Single true ->
    okN (fst (wGet kind w f)) r /\
    match kind f with
    | Single _ => wresult (snd (wGet kind w f)) = WVal (val_of r f)
    | Many _ => exists i, snd (wGet kind w f) = Some (PList i) /\ wprops (fst (wGet kind w f)) f = Some (PList i)
    end /\ values (fst (wGet kind w f)) = values w /\ lists (fst (wGet kind w f)) = lists w.
  Proof.
    intros W0 NT. pose proof W0 as [Hs H]. pose proof (H f) as Hf. unfold wGet. destruct (kind f) as [[|]|u] eqn:Ek; [contradiction| |].
    - rewrite Hf. destruct (val_of r f); cbn; rewrite ?Hs; cbn; auto.
    - destruct Hf as [[Hp Hl]|(i & Hp & Hi)]; rewrite Hp; cbn [fst snd].
      + split; [|split; [exists (length (handles w)); cbn; rewrite upd_eq; auto|auto]].
        split; [exact Hs|]. intro g. pose proof (H g) as Hg. destruct (Nat.eq_dec g f) as [->|Ne].
        * rewrite Ek. right. exists (length (handles w)). cbn. rewrite upd_eq. split; [reflexivity|].
          exists (createList w f). cbn [handles wcache]. rewrite nth_error_app2, Nat.sub_diag by lia. rewrite (createN w f Hs), Hl. repeat split.
        * cbn. rewrite upd_ne by exact Ne. destruct (kind g) as [[|]|u']; auto. destruct Hg as [Hg|(j & Hj & h & Hh & Q)]; [auto|].
          right. exists j. split; [exact Hj|]. exists h. cbn. split; [|exact Q].
          rewrite nth_error_app1; [exact Hh|]. apply nth_error_Some. congruence.
      + split; [exact W0|]. split; [eauto|auto].
  Qed.

  (** attaching a store that has the contents *)
  Lemma attach_fresh w t r : wcache w = false -> wstore w <> Some t -> stores kind w t r -> ok kind (wSetEStore kind w (Some t)) t r.
  Proof.
    intros Hc Hs St. unfold wSetEStore. destruct (same_store (wstore w) (Some t)) eqn:Es.
    { destruct (wstore w) as [s|]; [|discriminate]. cbn in Es. apply Nat.eqb_eq in Es. congruence. }
    rewrite Hc. split; [reflexivity|]. intro f. specialize (St f). cbn. destruct (kind f) as [[|]|u]; auto.
  Qed.
  Lemma told w i h t : nth_error (handles w) i = Some h -> isProperty w i h = true ->
    nth_error (handles (wSetEStore kind w (Some t))) i
    = Some (if same_store (wstore w) (Some t) then h else hSetEStore w h t).
  Proof.
    intros Hh Hp. unfold wSetEStore. destruct (same_store (wstore w) (Some t)); [exact Hh|]. cbn. rewrite nth_mapi, Hh. cbn.
    now rewrite Hp.
  Qed.
  Lemma attach_from_none w t r : okN w r -> stores kind w t r -> ok kind (wSetEStore kind w (Some t)) t r.
  Proof.
    intros [Hs H] St. destruct (wcache w) eqn:Hc; [|apply attach_fresh; auto; congruence].
    split; [unfold wSetEStore; rewrite Hs; reflexivity|]. intro f. specialize (St f). specialize (H f).
    assert (P : wprops (wSetEStore kind w (Some t)) = wprops w) by (unfold wSetEStore; rewrite Hs, Hc; reflexivity).
    assert (V : values (wSetEStore kind w (Some t)) = values w) by (unfold wSetEStore; rewrite Hs; reflexivity).
    assert (L : lists (wSetEStore kind w (Some t)) = lists w) by (unfold wSetEStore; rewrite Hs; reflexivity).
    assert (C : wcache (wSetEStore kind w (Some t)) = true) by (unfold wSetEStore; rewrite Hs; exact Hc).
    rewrite P, V, L, C. destruct (kind f) as [[|]|u]; [exact I| |].
    - split; [exact St|]. rewrite H. destruct (val_of r f) as [v|]; [right; split; [reflexivity|]; exists v; auto|left; reflexivity].
    - split; [exact St|]. destruct H as [[H _]|(i & Hi & h & Hh & Hf & Hst & Hca & Hd & Hz)]; [auto|]. right. exists i. split; [exact Hi|].
      exists (hSetEStore w h t). rewrite (told w i h t Hh), Hs by (unfold isProperty; rewrite Hf, Hi; apply Nat.eqb_refl).
      split; [reflexivity|]. unfold hSetEStore. rewrite Hst. cbn [same_store]. unfold setEStore, view, handle_of. cbn. rewrite Hca, Hc, Hf.
      repeat split; auto; cbn; rewrite ?L, ?St; auto.
  Qed.
  Lemma attach_from_store w s t r : ok kind w s r -> stores kind w t r -> ok kind (wSetEStore kind w (Some t)) t r.
  Proof.
    intros O St. pose proof O as [Hs H]. destruct (Nat.eq_dec s t) as [<-|Ne].
    { unfold wSetEStore. rewrite Hs. cbn [same_store]. rewrite Nat.eqb_refl. exact O. }
    destruct (wcache w) eqn:Hc; [|apply attach_fresh; auto; congruence].
    assert (Es : same_store (Some s) (Some t) = false) by (now apply Nat.eqb_neq).
    split; [unfold wSetEStore; rewrite Hs, Es; reflexivity|]. intro f. specialize (St f). specialize (H f).
    assert (P : wprops (wSetEStore kind w (Some t)) = wprops w) by (unfold wSetEStore; rewrite Hs, Es, Hc; reflexivity).
    assert (V : values (wSetEStore kind w (Some t)) = values w) by (unfold wSetEStore; rewrite Hs, Es; reflexivity).
    assert (L : lists (wSetEStore kind w (Some t)) = lists w) by (unfold wSetEStore; rewrite Hs, Es; reflexivity).
    assert (C : wcache (wSetEStore kind w (Some t)) = true) by (unfold wSetEStore; rewrite Hs, Es; exact Hc).
    rewrite P, V, L, C. destruct (kind f) as [[|]|u]; [exact I| |].
    - split; [exact St|]. destruct H as [_ [H|(_ & H)]]; auto.
    - split; [exact St|]. destruct H as [_ [H|(i & Hi & h & Hh & Hf & Hst & Hca & Hd & Hx & Hz)]]; [auto|]. right. exists i. split; [exact Hi|].
      exists (hSetEStore w h t). rewrite (told w i h t Hh), Hs, Es by (unfold isProperty; rewrite Hf, Hi; apply Nat.eqb_refl).
      split; [reflexivity|]. unfold hSetEStore. rewrite Hst, Es. unfold setEStore, view, handle_of. cbn. rewrite Hca, Hc, Hf.
      destruct Hd as [Hd|(_ & _ & Hd)]; [|cbn in Hd; congruence]. cbn in Hd, Hz.
      repeat split; auto; cbn; rewrite ?L, ?St; auto.
  Qed.

  Context (eqb_ok : forall x y, reflect (x = y) (eqb x y)).

  Lemma onN w r f i u o : okN w r -> kind f = Many u -> wprops w f = Some (PList i) -> sop_ok eqb u (seq_of r f) (N o) ->
    match onList eqb nilv kind w i o, seq_step eqb u (seq_of r f) (N o) with
    | Some (w', x), Some (l, y) =>
        x = y /\ okN w' (Cts (val_of r) (set_at (seq_of r) f l)) /\ values w' = values w /\ lists w' = lists w
    | None, None => True
    | _, _ => False
    end.
  Proof.
    intros [Hs H] Ek Hp Hok. pose proof (H f) as Hf. rewrite Ek in Hf.
    destruct Hf as [[Hf _]|(j & Hj & h & Hh & Hf & Hst & Hc & Hd & Hz)]; [congruence|].
    assert (j = i) by congruence. subst j. unfold onList. rewrite Hh. cbn -[sstep seq_step view handle_of written replace]. rewrite Hf, Ek.
    pose proof (sstep_seq eqb nilv eqb_ok u _ _ (N o) (goodN_holds w h _ Hst Hd Hz) Hok) as S.
    pose proof (sstep_keeps eqb nilv u (view (lists w) h) o) as K.
    destruct (sstep eqb nilv u (view (lists w) h) (N o)) as [[[s' ns] cb] x|]; [|destruct (seq_step _ _ _ _); [contradiction|exact I]].
    destruct (seq_step eqb u (seq_of r f) (N o)) as [[l y]|]; [|contradiction]. destruct S as [S ->].
    destruct K as [[K1 K2] Kc]. unfold view in K1, K2, Kc. cbn [store cache] in K1, K2, Kc. rewrite Hst in K1, K2. cbn in K1, K2.
    assert (St : store s' = None) by (apply K2; reflexivity).
    assert (Sd : data s' = Some l) by (destruct S as ([S|(_ & S & _)] & _ & _); [exact S|congruence]).
    split; [reflexivity|]. unfold written. rewrite Hst. split; [|auto].
    split; [exact Hs|]. intro g. cbn [values wprops wcache lists val_of seq_of handles]. pose proof (H g) as Hg.
    destruct (Nat.eq_dec g f) as [->|Ne].
    - rewrite Ek. unfold set_at. rewrite Nat.eqb_refl. right. exists i. split; [exact Hp|].
      exists (handle_of f None s'). cbn [handles wcache]. rewrite nth_replace, Nat.eqb_refl, Hh. unfold handle_of. cbn.
      repeat split; try congruence. exact (proj2 (proj2 S)).
    - assert (Eg : (g =? f)%nat = false) by (now apply Nat.eqb_neq). unfold set_at. rewrite Eg.
      destruct (kind g) as [[|]|u']; [exact I|exact Hg|].
      destruct Hg as [Hg|(j & Hj2 & h' & Hh' & Hf' & Q)]; [auto|]. right. exists j. split; [exact Hj2|]. exists h'. cbn [handles wcache].
      assert (Nij : j <> i) by (intros ->; congruence).
      rewrite nth_replace. destruct (Nat.eqb_spec j i); [contradiction|]. auto.
  Qed.

  Lemma stepN w r o : okN w r -> allowed eqb kind r o ->
    match wstep eqb nilv kind w o, rec_step eqb kind r o with
    | Some (w', x), Some (r', y) => observed x = y /\ okN w' r' /\ values w' = values w /\ lists w' = lists w
    | None, None => True
    | _, _ => False
    end.
  Proof.
    intros Hw Hok. pose proof Hw as [Hs H]. destruct o as [f|f v|f|f|c|st|i o|f o]; cbn [wstep rec_step]; cbn [allowed] in Hok.
    - destruct (getN w r f Hw Hok) as (G & Q & V & L). destruct (wGet kind w f) as [w' p]. cbn [fst snd] in *.
      destruct (kind f) as [b|u].
      + rewrite Q. cbn. auto.
      + destruct Q as (i & -> & _). cbn. auto.
    - unfold wSet. rewrite Hok, Hs. split; [reflexivity|]. split; [|cbn; auto].
      split; [reflexivity|]. intro g. cbn [values wprops wcache lists val_of seq_of handles]. pose proof (H g) as Hg.
      destruct (Nat.eq_dec g f) as [->|Ne].
      + rewrite Hok, upd_eq. unfold set_at. now rewrite Nat.eqb_refl.
      + unfold set_at. destruct (Nat.eqb_spec g f); [contradiction|]. rewrite upd_ne by exact Ne. exact Hg.
    - unfold wUnset. rewrite Hs. destruct (kind f) as [[|]|u] eqn:Ek; [contradiction| |]; (split; [reflexivity|]); (split; [|cbn; auto]);
        (split; [reflexivity|]); intro g; cbn [values wprops wcache lists val_of seq_of handles]; pose proof (H g) as Hg;
        (destruct (Nat.eq_dec g f) as [->|Ne];
         [rewrite Ek, upd_eq; unfold set_at; rewrite Nat.eqb_refl; auto
         |unfold set_at; destruct (Nat.eqb_spec g f); [contradiction|]; rewrite upd_ne by exact Ne; exact Hg]).
    - split; [|split; [exact Hw|auto]]. cbn. unfold wIsSet. rewrite Hs. pose proof (H f) as Hf. rewrite Hok in Hf. rewrite Hf.
      destruct (val_of r f); reflexivity.
    - unfold wSetCache. destruct (Bool.eqb (wcache w) c) eqn:Ec; (split; [reflexivity|]); (split; [|auto]); [exact Hw|].
      rewrite Hs. split; [reflexivity|]. intro g. cbn [values wprops wcache lists val_of seq_of handles]. pose proof (H g) as Hg.
      destruct (kind g) as [[|]|u]; [exact I|exact Hg|]. destruct Hg as [Hg|(j & Hj & h & Hh & Hf & Hst & Hc & Hd & Hz)]; [auto|].
      right. exists j. split; [exact Hj|]. eexists. cbn [handles wcache]. rewrite nth_mapi, Hh. cbn. split; [reflexivity|].
      assert (E : isProperty w j h = true) by (unfold isProperty; rewrite Hf, Hj; apply Nat.eqb_refl). rewrite E.
      unfold setCache, view. cbn. rewrite Hc, Ec, Hst, Hd. cbn. destruct c; cbn; repeat split; auto.
    - contradiction.
    - contradiction.
    - destruct (kind f) as [b|u] eqn:Ek; [contradiction|].
      assert (NT : kind f <> Single true) by congruence.
      destruct (getN w r f Hw NT) as (G & Q & V & L). destruct (wGet kind w f) as [w' p]. cbn [fst snd] in *.
      rewrite Ek in Q. destruct Q as (i & -> & Hp). pose proof (onN w' r f i u o G Ek Hp Hok) as O.
      destruct (onList eqb nilv kind w' i o) as [[w2 x]|], (seq_step eqb u (seq_of r f) (N o)) as [[l y]|]; try contradiction; [|exact I].
      destruct O as (-> & O & V2 & L2). split; [reflexivity|]. split; [exact O|]. split; congruence.
  Qed.

  Definition okA w r : Prop := match wstore w with Some s => ok kind w s r | None => okN w r end.

  Lemma stepA w r o : okA w r -> attachable eqb kind w r o ->
    match wstep eqb nilv kind w o, rec_step eqb kind r o with
    | Some (w', x), Some (r', y) => observed x = y /\ okA w' r' /\ only_attached w w'
    | None, None => True
    | _, _ => False
    end.
  Proof.
    unfold okA at 1. intros O H. assert (D : (exists t, o = WSetEStore (Some t)) \/ allowed eqb kind r o).
    { destruct o as [f|f v|f|f|c|[t|]|i o|f o]; eauto. }
    destruct D as [[t ->]|Ha].
    - cbn [attachable wstep rec_step] in *. split; [reflexivity|].
      assert (W : wstore (wSetEStore kind w (Some t)) = Some t).
      { unfold wSetEStore. destruct (same_store (wstore w) (Some t)) eqn:Es; [|reflexivity].
        destruct (wstore w) as [s|]; [|discriminate]. cbn in Es. apply Nat.eqb_eq in Es. congruence. }
      split.
      + unfold okA. rewrite W. destruct (wstore w) as [s|] eqn:Es; [eapply attach_from_store; eassumption|now apply attach_from_none].
      + intros t' _. unfold wSetEStore. destruct (same_store _ _); auto.
    - clear H. destruct (wstore w) as [s|] eqn:Es.
      + pose proof (step_ok eqb nilv kind eqb_ok w s r o O Ha) as S.
        destruct (wstep eqb nilv kind w o) as [[w' x]|], (rec_step eqb kind r o) as [[r' y]|]; try contradiction; [|exact I].
        destruct S as (S1 & S2 & S3). split; [exact S1|]. split; [unfold okA; now rewrite (proj1 S2)|].
        intros t Ht. apply S3. congruence.
      + pose proof (stepN w r o O Ha) as S.
        destruct (wstep eqb nilv kind w o) as [[w' x]|], (rec_step eqb kind r o) as [[r' y]|]; try contradiction; [|exact I].
        destruct S as (S1 & S2 & S3 & S4). split; [exact S1|]. split; [unfold okA; now rewrite (proj1 S2)|].
        intros t _. now rewrite S3, S4.
  Qed.

  Lemma runA h : forall w r, okA w r -> all_attachable eqb nilv kind w r h ->
    map observed (fst (wrun eqb nilv kind w h)) = fst (rec_run eqb kind r h) /\
    match snd (wrun eqb nilv kind w h), snd (rec_run eqb kind r h) with
    | Some w', Some r' => okA w' r'
    | None, None => True
    | _, _ => False
    end /\ steps_only_attached eqb nilv kind w h.
  Proof.
    induction h as [|o h IH]; intros w r Hw Hok; [cbn; auto|]. destruct Hok as [Ho Hok].
    pose proof (stepA w r o Hw Ho) as S. cbn [wrun rec_run steps_only_attached].
    destruct (wstep eqb nilv kind w o) as [[w1 x]|], (rec_step eqb kind r o) as [[r1 y]|]; try contradiction; [|cbn; auto].
    destruct S as (<- & S & F). specialize (IH w1 r1 S Hok).
    destruct (wrun eqb nilv kind w1 h) as [rs fin], (rec_run eqb kind r1 h) as [rs' fin']. cbn [fst snd map] in *.
    destruct IH as (-> & IH & K). auto.
  Qed.

  Lemma okA_new start c v l : okA (NewObject start c v l) (initial start v l).
  Proof.
    destruct start as [s|]; [apply ok_new|]. split; [reflexivity|]. intro f. cbn. destruct (kind f) as [[|]|u]; auto.
  Qed.
  Lemma okA_persisted w r : okA w r -> persisted kind w r.
  Proof. unfold okA, persisted. destruct (wstore w); [apply ok_stores|auto]. Qed.
End Attach.
