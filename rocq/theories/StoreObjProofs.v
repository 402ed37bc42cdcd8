(** Proofs about objects that keep their features in a store. *)
From Verif Require Import Base ListModel ListSpec NotifyModel StoreListModel StoreListSpec StoreListProofs StoreObjModel StoreObjSpec.

(** *** a call on a list keeps its store and its cache flag *)
Section Keeps.
  Context {A : Type} (eqb : A -> A -> bool) (nilv : A).
  Definition keeps (s s' : slist A) : Prop := (store s' = None <-> store s = None) /\ cache s' = cache s.
  Lemma keeps_refl s : keeps s s.
  Proof. split; reflexivity. Qed.
  Lemma keeps_trans a b c : keeps a b -> keeps b c -> keeps a c.
  Proof. intros [[A1 A2] E] [[B1 B2] F]. split; [split; auto|congruence]. Qed.

  Lemma perform_keeps {X} (s : slist A) fd fs (dflt : X) ns s' x cb :
    perform s fd fs dflt ns = Some (s', x, cb) -> keeps s s'.
  Proof.
    unfold perform. destruct (data s) as [d|].
    - destruct (fd d) as [[[d' y] c]|]; [|discriminate]. destruct (store s) as [t|] eqn:Es.
      + destruct (fs t) as [[[t' z] c']|]; [|discriminate]. intros [= <- <- <-]. split; cbn; [rewrite Es; split; discriminate|reflexivity].
      + intros [= <- <- <-]. split; cbn; [rewrite Es; split; reflexivity|reflexivity].
    - destruct (store s) as [t|] eqn:Es.
      + destruct (fs t) as [[[t' z] c']|]; [|discriminate]. intros [= <- <- <-]. split; cbn; [rewrite Es; split; discriminate|reflexivity].
      + intros [= <- <- <-]. split; cbn; [rewrite Es; split; reflexivity|reflexivity].
  Qed.
  Lemma insertAll_keeps (s : slist A) i c s' b cb : performInsertAll s i c = Some (s', b, cb) -> keeps s s'.
  Proof.
    unfold performInsertAll. destruct (data s) as [d|].
    - destruct (doInsertAll d i (now c s)) as [[[d' b'] c']|]; [|discriminate]. destruct b'; cbn -[st_add_all walk].
      + destruct (store s) as [t|] eqn:Es.
        * destruct (walk c _) as [l|]; [|discriminate]. cbn -[st_add_all]. destruct (st_add_all t i l); [|discriminate].
          intros [= <- <- <-]. split; cbn; [rewrite Es; split; discriminate|reflexivity].
        * intros [= <- <- <-]. split; cbn; [rewrite Es; split; reflexivity|reflexivity].
      + intros [= <- <- <-]. split; cbn; reflexivity.
    - destruct (store s) as [t|] eqn:Es.
      + destruct (walk c _) as [l|]; [|discriminate]. cbn -[st_add_all]. destruct (st_add_all t i l); [|discriminate].
        intros [= <- <- <-]. split; cbn; [rewrite Es; split; discriminate|reflexivity].
      + intros [= <- <- <-]. split; cbn; [rewrite Es; split; reflexivity|reflexivity].
  Qed.
  Lemma doInsertAll_keeps (s : slist A) i c s' b cb : doInsertAll_s s i c = Some (s', b, cb) -> keeps s s'.
  Proof.
    unfold doInsertAll_s. destruct (count c s =? 0); [intros [= <- <- <-]; apply keeps_refl|].
    destruct (performInsertAll s i c) as [[[s1 b1] c1]|] eqn:E; [|discriminate]. intros [= <- <- <-].
    eapply insertAll_keeps, E.
  Qed.
  Lemma removePositions_keeps ps : forall (s : slist A) s' cb, removePositions_s nilv s ps = Some (s', cb) -> keeps s s'.
  Proof.
    induction ps as [|p ps IH]; cbn; intros s s' cb; [intros [= <- <-]; apply keeps_refl|].
    destruct (performRemove nilv s p) as [[[s1 x] c1]|] eqn:E; [|discriminate]. cbn -[removePositions_s].
    destruct (removePositions_s nilv s1 ps) as [[s2 c2]|] eqn:E2; [|discriminate]. cbn. intros [= <- <-].
    eapply keeps_trans; [eapply perform_keeps, E|eapply IH, E2].
  Qed.
  Definition out_keeps (s : slist A) (o : @sout A) : Prop := match o with Ret (s', _, _) _ => keeps s s' | Panic => True end.
  Lemma bulk_keeps unique (s : slist A) i c : out_keeps s (bulk eqb nilv unique s i c).
  Proof.
    unfold bulk. destruct unique.
    - destruct (elems_s nilv s c) as [l0|]; [|exact I]. cbn. destruct (getNonDuplicates_s eqb nilv s l0) as [l|]; [|exact I]. cbn.
      destruct (zlen l =? 0); [apply keeps_refl|]. destruct (doInsertAll_s s i (fixed l)) as [[[s1 b] c1]|] eqn:E; [|exact I].
      cbn. eapply doInsertAll_keeps, E.
    - destruct (doInsertAll_s s i (source_of nilv c)) as [[[s1 b] c1]|] eqn:E; [|exact I]. cbn. eapply doInsertAll_keeps, E.
  Qed.
  Lemma lift_keeps {X} (s : slist A) (o : option (slist A * X * list (scallback A))) (k : slist A * X * list (scallback A) -> @sout A) :
    (forall s' x cb, o = Some (s', x, cb) -> keeps s s') -> (forall s' x cb, keeps s s' -> out_keeps s (k (s', x, cb))) ->
    out_keeps s (slift o k).
  Proof. intros H K. destruct o as [[[s' x] cb]|]; [|exact I]. apply K. eapply H. reflexivity. Qed.
  Lemma sstep_keeps unique (s : slist A) o : out_keeps s (sstep eqb nilv unique s (N o)).
  Proof.
    destruct o as [[e|c|i e|i c|i e|i j|i|e|i j|c|i|i e| | | |e|e|]|e|e|i e]; cbn [sstep];
      repeat match goal with |- out_keeps _ (if ?b then _ else _) => destruct b end;
      try exact I; try apply keeps_refl; try apply bulk_keeps;
      try (apply lift_keeps; [intros ? ? ?; apply perform_keeps|intros ? ? ? K; exact K]).
    - destruct (elems_s nilv s c) as [l|]; [|exact I]. cbn.
      destruct (match l with [] => Some [] | _ => items nilv s end) as [its|]; [|exact I]. cbn.
      destruct (removePositions_s nilv s _) as [[s1 cb]|] eqn:E; [|exact I]. cbn. apply removePositions_keeps in E.
      destruct (scanRemoved eqb 0 its l) as [|[p q] r]; exact E.
    - destruct (get nilv s i) as [v|]; [|exact I]. apply keeps_refl.
  Qed.
End Keeps.

(** *** Objects *)
Section Object.
  Context {A : Type} (eqb : A -> A -> bool) (nilv : A) (kind : nat -> fkind).
  Implicit Types (w : world A) (r : contents A) (h : handle A).

  Lemma upd_eq {X} (m : nat -> X) k v : upd m k v k = v.
  Proof. unfold upd. now rewrite Nat.eqb_refl. Qed.
  Lemma upd_ne {X} (m : nat -> X) k v j : j <> k -> upd m k v j = m j.
  Proof. intro H. unfold upd. destruct (Nat.eqb_spec j k); [contradiction|reflexivity]. Qed.
  Lemma upd_set {X} (m : nat -> X) k v j : upd m k v j = set_at m k v j.
  Proof. reflexivity. Qed.

  Lemma nth_replace {X} (l : list X) : forall i x j, nth_error (replace l i x) j = if (j =? i)%nat then option_map (fun _ => x) (nth_error l i) else nth_error l j.
  Proof.
    induction l as [|y l IH]; intros [|i] x [|j]; cbn; try reflexivity; try (destruct (_ =? _)%nat; reflexivity). apply IH.
  Qed.
  Lemma nth_mapi {X Y} (g : nat -> X -> Y) (l : list X) : forall n i, nth_error (mapi g n l) i = option_map (g (n + i)%nat) (nth_error l i).
  Proof.
    induction l as [|x l IH]; intros n [|i]; cbn; try reflexivity; [now rewrite Nat.add_0_r|]. rewrite IH. now rewrite Nat.add_succ_r.
  Qed.

  (** the handle [i] is the list of [f], over the store [s], with contents [l] *)
  Definition good w s f i (l : list A) : Prop :=
    exists h, nth_error (handles w) i = Some h /\ hfeat h = f /\ hstore h = Some s /\ hcache h = wcache w
              /\ holds (view (lists w) h) l.
  Definition ok w s r : Prop :=
    wstore w = Some s /\
    forall f, match kind f with
              | Single true => True
              | Single false => values w s f = val_of r f
                  /\ (wprops w f = None \/ (wcache w = true /\ exists v, wprops w f = Some (PVal v) /\ val_of r f = Some v))
              | Many _ => lists w s f = seq_of r f
                  /\ (wprops w f = None \/ exists i, wprops w f = Some (PList i) /\ good w s f i (seq_of r f))
              end.

  Lemma ok_new s c v l : ok (NewObject (Some s) c v l) s (Cts (v s) (l s)).
  Proof. split; [reflexivity|]. intro f. cbn. destruct (kind f) as [[|]|u]; auto. Qed.

  Lemma create_good w s f l : wstore w = Some s -> lists w s f = l ->
    let h := createList w f in hfeat h = f /\ hstore h = Some s /\ hcache h = wcache w /\ holds (view (lists w) h) l.
  Proof.
    intros Hs Hl. unfold createList. rewrite Hs. cbn [option_map].
    assert (H : holds (setCache (initialize (Some (lists w s f))) (wcache w)) l).
    { apply setCache_holds. rewrite <- Hl. exact (initialize_holds (Some (lists w s f))). }
    assert (K : store (setCache (initialize (Some (lists w s f))) (wcache w)) = Some (lists w s f)).
    { unfold setCache, initialize. cbn. destruct (wcache w); reflexivity. }
    assert (C : cache (setCache (initialize (Some (lists w s f))) (wcache w)) = wcache w).
    { unfold setCache, initialize. cbn. destruct (wcache w); reflexivity. }
    cbn zeta. unfold handle_of, view. cbn [hfeat hstore hcache hdata hsize option_map].
    split; [reflexivity|]. split; [reflexivity|]. split; [exact C|].
    unfold holds in *. cbn [data store cache size]. rewrite K in H. exact H.
  Qed.

  (** reading *)
  Lemma get_ok w s r f : ok w s r -> kind f <> Single true ->
    ok (fst (wGet kind w f)) s r /\
    match kind f with
    | Single _ => wresult (snd (wGet kind w f)) = WVal (val_of r f)
    | Many _ => exists i, snd (wGet kind w f) = Some (PList i) /\ wprops (fst (wGet kind w f)) f = Some (PList i)
                          /\ good (fst (wGet kind w f)) s f i (seq_of r f)
    end /\ values (fst (wGet kind w f)) = values w /\ lists (fst (wGet kind w f)) = lists w.
  Proof.
    intros W0 NT. pose proof W0 as [Hs H]. pose proof (H f) as Hf. unfold wGet. destruct (kind f) as [[|]|u] eqn:Ek; [contradiction| |].
    - destruct Hf as [Hv [Hp|(Hc & v & Hp & Hv')]]; rewrite Hp.
      + rewrite Hs. unfold storeGet. rewrite Hv. cbn [fst snd]. split.
        * destruct (wcache w) eqn:Ec; [|exact W0]. split; [reflexivity|]. intro g. cbn.
          pose proof (H g) as Hg. destruct (Nat.eq_dec g f) as [->|Ne].
          -- rewrite Ek, upd_eq. split; [exact Hv|]. destruct (val_of r f) as [v|] eqn:E; [right; split; [reflexivity|]; exists v; auto|left; reflexivity].
          -- rewrite upd_ne by exact Ne. destruct (kind g) as [[|]|u]; [exact I|exact Hg|].
             destruct Hg as [Hl' [Hg|(j & Hj & h & Hh & Q1 & Q2 & Q3 & Q4)]]; [auto|]. split; [exact Hl'|]. right. exists j.
             split; [exact Hj|]. exists h. split; [exact Hh|]. split; [exact Q1|]. split; [exact Q2|]. split; [cbn; congruence|exact Q4].
        * split; [destruct (val_of r f); reflexivity|]. destruct (wcache w); auto.
      + cbn. rewrite Hv'. repeat split; auto.
    - destruct Hf as [Hl [Hp|(i & Hp & Hi)]]; rewrite Hp; cbn [fst snd].
      + set (w' := Wd _ _ _ _ _ _). assert (G : good w' s f (length (handles w)) (seq_of r f)).
        { destruct (create_good w s f _ Hs Hl) as (G1 & G2 & G3 & G4). exists (createList w f). cbn.
          rewrite nth_error_app2, Nat.sub_diag by lia. auto. }
        split; [|split; [exists (length (handles w)); cbn; rewrite upd_eq; auto|auto]].
        split; [exact Hs|]. intro g. pose proof (H g) as Hg. destruct (Nat.eq_dec g f) as [->|Ne].
        * rewrite Ek. split; [exact Hl|]. right. exists (length (handles w)). cbn. rewrite upd_eq. auto.
        * cbn. rewrite upd_ne by exact Ne. destruct (kind g) as [[|]|u']; auto. destruct Hg as [Hl' [Hg|(j & Hj & h & Hh & Q)]]; [auto|].
          split; [exact Hl'|]. right. exists j. split; [exact Hj|]. exists h. cbn. split; [|exact Q].
          rewrite nth_error_app1; [exact Hh|]. apply nth_error_Some. congruence.
      + split; [split; assumption|]. split; [eauto|auto].
  Qed.

  Context (eqb_ok : forall x y, reflect (x = y) (eqb x y)).
  Lemma on_ok w s r f i u o : ok w s r -> kind f = Many u -> wprops w f = Some (PList i) -> sop_ok eqb u (seq_of r f) (N o) ->
    match onList eqb nilv kind w i o, seq_step eqb u (seq_of r f) (N o) with
    | Some (w', x), Some (l, y) =>
        x = y /\ ok w' s (Cts (val_of r) (set_at (seq_of r) f l))
        /\ values w' = values w /\ (forall t, t <> s -> lists w' t = lists w t)
    | None, None => True
    | _, _ => False
    end.
  Proof.
    intros [Hs H] Ek Hp Hok. pose proof (H f) as Hf. rewrite Ek in Hf. destruct Hf as [Hl [Hf|(j & Hj & h & Hh & Hf & Hst & Hc & Hv)]]; [congruence|].
    assert (j = i) by congruence. subst j. unfold onList. rewrite Hh. cbn -[sstep seq_step view handle_of written replace]. rewrite Hf, Ek.
    pose proof (sstep_seq eqb nilv eqb_ok u _ _ (N o) Hv Hok) as S. pose proof (sstep_keeps eqb nilv u (view (lists w) h) o) as K.
    destruct (sstep eqb nilv u (view (lists w) h) (N o)) as [[[s' ns] cb] x|]; [|destruct (seq_step _ _ _ _); [contradiction|exact I]].
    destruct (seq_step eqb u (seq_of r f) (N o)) as [[l y]|]; [|contradiction]. destruct S as [S ->].
    destruct K as [[K1 K2] Kc]. unfold view in K1, K2, Kc. cbn [store cache] in K1, K2, Kc. rewrite Hst in K1, K2. cbn in K1, K2.
    assert (St : store s' = Some l).
    { destruct S as (_ & [S|S] & _); [|exact S]. apply K1 in S. discriminate. }
    split; [reflexivity|]. unfold written. rewrite Hst, St, Hf.
    assert (W : forall t g, upd (lists w) s (upd (lists w s) f l) t g = if (t =? s)%nat then (if (g =? f)%nat then l else lists w s g) else lists w t g).
    { intros t g. unfold upd. destruct (t =? s)%nat; reflexivity. }
    split; [|cbn; split; [reflexivity|intros t Ht; apply upd_ne, Ht]].
    split; [exact Hs|]. intro g. cbn [values wprops wcache lists val_of seq_of handles]. pose proof (H g) as Hg.
    destruct (Nat.eq_dec g f) as [->|Ne].
    - rewrite Ek. rewrite W, !Nat.eqb_refl. unfold set_at. rewrite Nat.eqb_refl. split; [reflexivity|].
      right. exists i. split; [exact Hp|]. exists (handle_of f (Some s) s'). cbn [handles wcache lists].
      rewrite nth_replace, Nat.eqb_refl, Hh. cbn [option_map]. unfold handle_of. cbn [hfeat hstore hcache].
      repeat split; try reflexivity; try congruence.
      + unfold view. cbn [hfeat hstore hcache hdata hsize option_map data store cache]. rewrite W, !Nat.eqb_refl.
        destruct S as ([S|(S1 & S2 & S3)] & _ & _); [left; exact S|right; auto].
      + right. unfold view. cbn [hstore hfeat option_map store]. rewrite W, !Nat.eqb_refl. reflexivity.
      + unfold view. cbn [hsize size]. exact (proj2 (proj2 S)).
    - assert (Eg : (g =? f)%nat = false) by (now apply Nat.eqb_neq). unfold set_at. rewrite Eg.
      destruct (kind g) as [[|]|u']; [exact I|exact Hg|]. rewrite W, Nat.eqb_refl, Eg.
      destruct Hg as [Hl' Hg]. split; [exact Hl'|]. destruct Hg as [Hg|(j & Hj2 & h' & Hh' & Hf' & Hst' & Hc' & Hv')]; [auto|].
      right. exists j. split; [exact Hj2|]. exists h'. cbn [handles wcache lists].
      assert (Nij : j <> i) by (intros ->; congruence).
      rewrite nth_replace. destruct (Nat.eqb_spec j i); [contradiction|]. repeat split; auto.
      + unfold view in *. cbn [data store cache size] in *. rewrite Hst', Hf' in *. cbn [option_map] in *.
        rewrite W, Nat.eqb_refl, Eg. exact (proj1 Hv').
      + unfold view in *. cbn [data store cache size] in *. rewrite Hst', Hf' in *. cbn [option_map] in *.
        rewrite W, Nat.eqb_refl, Eg. exact (proj1 (proj2 Hv')).
      + exact (proj2 (proj2 Hv')).
  Qed.

  (** a call of a disciplined history *)
  Lemma step_ok w s r o : ok w s r -> allowed eqb kind r o ->
    match wstep eqb nilv kind w o, rec_step eqb kind r o with
    | Some (w', x), Some (r', y) => observed x = y /\ ok w' s r'
        /\ (forall t, t <> s -> values w' t = values w t /\ lists w' t = lists w t)
    | None, None => True
    | _, _ => False
    end.
  Proof.
    intros Hw Hok. pose proof Hw as [Hs H]. destruct o as [f|f v|f|f|c|st|i o|f o]; cbn [wstep rec_step]; cbn [allowed] in Hok.
    - destruct (get_ok w s r f Hw Hok) as (G & Q & V & L). destruct (wGet kind w f) as [w' p]. cbn [fst snd] in *.
      destruct (kind f) as [b|u].
      + rewrite Q. cbn. repeat split; try apply G; congruence.
      + destruct Q as (i & -> & _ & _). cbn. repeat split; try apply G; congruence.
    - unfold wSet. rewrite Hok, Hs. split; [reflexivity|]. split; [|cbn; intros t Ht; split; [apply upd_ne, Ht|reflexivity]].
      split; [reflexivity|]. intro g. cbn [values wprops wcache lists val_of seq_of handles]. pose proof (H g) as Hg.
      destruct (Nat.eq_dec g f) as [->|Ne].
      + rewrite Hok, upd_eq, upd_eq. unfold set_at. rewrite ?Nat.eqb_refl. split; [reflexivity|]. rewrite Hok in Hg. destruct (wcache w).
        * rewrite upd_eq. destruct v as [v|]; [right; split; [reflexivity|]; exists v; auto|left; reflexivity].
        * left. destruct Hg as [_ [Hg|(E & _)]]; [exact Hg|discriminate].
      + unfold set_at. destruct (Nat.eqb_spec g f); [contradiction|]. rewrite upd_eq, upd_ne by exact Ne.
        assert (E : (if wcache w then upd (wprops w) f (option_map PVal v) else wprops w) g = wprops w g).
        { destruct (wcache w); [apply upd_ne, Ne|reflexivity]. }
        rewrite E. destruct (kind g) as [[|]|u]; exact Hg.
    - unfold wUnset. rewrite Hs. destruct (kind f) as [[|]|u] eqn:Ek; [contradiction| |].
      + split; [reflexivity|]. split; [|cbn; intros t Ht; split; [apply upd_ne, Ht|reflexivity]].
        split; [reflexivity|]. intro g. cbn [values wprops wcache lists val_of seq_of handles]. pose proof (H g) as Hg.
        destruct (Nat.eq_dec g f) as [->|Ne].
        * rewrite Ek, !upd_eq. unfold set_at. rewrite ?Nat.eqb_refl. auto.
        * unfold set_at. destruct (Nat.eqb_spec g f); [contradiction|]. rewrite upd_eq, !upd_ne by exact Ne.
          destruct (kind g) as [[|]|u]; exact Hg.
      + split; [reflexivity|]. split; [|cbn; intros t Ht; split; [reflexivity|apply upd_ne, Ht]].
        split; [reflexivity|]. intro g. cbn [values wprops wcache lists val_of seq_of handles]. pose proof (H g) as Hg.
        destruct (Nat.eq_dec g f) as [->|Ne].
        * rewrite Ek, !upd_eq. unfold set_at. rewrite ?Nat.eqb_refl. auto.
        * unfold set_at. destruct (Nat.eqb_spec g f); [contradiction|]. rewrite upd_eq, !upd_ne by exact Ne.
          destruct (kind g) as [[|]|u']; [exact Hg|exact Hg|]. destruct Hg as [Hl Hg]. split; [exact Hl|].
          destruct Hg as [Hg|(j & Hj & h' & Hh' & Hf' & Hst' & Hc' & Hv')]; [auto|]. right. exists j. split; [exact Hj|].
          exists h'. cbn [handles wcache lists]. repeat split; auto;
            unfold view in *; cbn [data store cache size] in *; rewrite Hst', Hf' in *; cbn [option_map] in *;
            rewrite ?upd_eq, ?upd_ne by exact Ne; apply Hv'.
    - split; [|split; [exact Hw|auto]]. cbn. unfold wIsSet. rewrite Hs, Hok. pose proof (H f) as Hf. rewrite Hok in Hf.
      destruct Hf as [-> [->|(_ & v & -> & ->)]]; reflexivity.
    - unfold wSetCache. destruct (Bool.eqb (wcache w) c); (split; [reflexivity|]); (split; [|auto]); [exact Hw|].
      rewrite Hs. split; [reflexivity|]. intro g. cbn [values wprops wcache lists val_of seq_of handles]. pose proof (H g) as Hg.
      destruct (kind g) as [[|]|u]; [exact I|split; [apply Hg|auto]|split; [apply Hg|auto]].
    - contradiction.
    - contradiction.
    - destruct (kind f) as [b|u] eqn:Ek; [contradiction|].
      assert (NT : kind f <> Single true) by congruence.
      destruct (get_ok w s r f Hw NT) as (G & Q & V & L). destruct (wGet kind w f) as [w' p]. cbn [fst snd] in *.
      rewrite Ek in Q. destruct Q as (i & -> & Hp & _). pose proof (on_ok w' s r f i u o G Ek Hp Hok) as O.
      destruct (onList eqb nilv kind w' i o) as [[w2 x]|], (seq_step eqb u (seq_of r f) (N o)) as [[l y]|]; try contradiction; [|exact I].
      destruct O as (-> & O & V2 & L2). split; [reflexivity|]. split; [exact O|]. intros t Ht. rewrite V2, V. split; [reflexivity|].
      rewrite L2 by exact Ht. now rewrite L.
  Qed.

  Lemma run_ok ops : forall w s r, ok w s r -> all_allowed eqb kind r ops ->
    map observed (fst (wrun eqb nilv kind w ops)) = fst (rec_run eqb kind r ops) /\
    match snd (wrun eqb nilv kind w ops), snd (rec_run eqb kind r ops) with
    | Some w', Some r' => ok w' s r' /\ (forall t, t <> s -> values w' t = values w t /\ lists w' t = lists w t)
    | None, None => True
    | _, _ => False
    end.
  Proof.
    induction ops as [|o ops IH]; intros w s r Hw Hok; [cbn; auto|]. destruct Hok as [Ho Hok].
    pose proof (step_ok w s r o Hw Ho) as S. cbn [wrun rec_run].
    destruct (wstep eqb nilv kind w o) as [[w1 x]|], (rec_step eqb kind r o) as [[r1 y]|]; try contradiction; [|cbn; auto].
    destruct S as (<- & S & F). specialize (IH w1 s r1 S Hok).
    destruct (wrun eqb nilv kind w1 ops) as [rs fin], (rec_run eqb kind r1 ops) as [rs' fin']. cbn [fst snd map] in *.
    destruct IH as [-> IH]. split; [reflexivity|]. destruct fin, fin'; try contradiction; [|exact I].
    destruct IH as [I1 I2]. split; [exact I1|]. intros t Ht. destruct (F t Ht) as [F1 F2], (I2 t Ht) as [J1 J2]. split; congruence.
  Qed.

  Lemma ok_stores w s r : ok w s r -> stores kind w s r.
  Proof. intros [_ H] f. specialize (H f). destruct (kind f) as [[|]|u]; [exact I|apply H|apply H]. Qed.
End Object.
