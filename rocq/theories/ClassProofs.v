(** Proofs about derived views of classes. *)
From Coq Require Import Permutation.
From Verif Require Import Base ListModel ListSpec ListProofs CallbackProofs NotifyModel NotifySpec NotifyProofs ClassModel ClassSpec.

Scheme inherited_mind := Induction for inherited Sort Prop
  with inherits_mind := Induction for inherits Sort Prop.
Combined Scheme inherit_ind from inherited_mind, inherits_mind.

Definition after_of (k : kind) : nat -> list nat := match k with KSup => itself | _ => nothing end.
Definition inh (k : kind) (g : graph) : nat -> list nat -> Prop := inherited (supers g) (after_of k) (own k g).
Definition inhs (k : kind) (g : graph) : list nat -> list nat -> Prop := inherits (supers g) (after_of k) (own k g).
Definition is_main (k : kind) : Prop := In k [KSup; KAttr; KRef; KFeat; KOps].

Section Inherit.
  Context (sup : nat -> list nat) (after own : nat -> list nat).
  Lemma inherited_fun_both :
    (forall c l, inherited sup after own c l -> forall l', inherited sup after own c l' -> l = l') /\
    (forall ds l, inherits sup after own ds l -> forall l', inherits sup after own ds l' -> l = l').
  Proof.
    apply inherit_ind.
    - intros c l _ IH l' H. inversion H; subst. f_equal. auto.
    - intros l' H. now inversion H.
    - intros d ds l ls _ IH1 _ IH2 l' H. inversion H; subst. f_equal; [auto|]. f_equal. auto.
  Qed.
  Lemma inherited_fun c l l' : inherited sup after own c l -> inherited sup after own c l' -> l = l'.
  Proof. intros H H'. exact (proj1 inherited_fun_both c l H l' H'). Qed.

  (** filtering commutes with inheriting *)
  Lemma inherited_filter_both (p : nat -> bool) :
    (forall c l, inherited sup after own c l -> (forall d, after d = []) -> inherited sup after (fun c => filter p (own c)) c (filter p l)) /\
    (forall ds l, inherits sup after own ds l -> (forall d, after d = []) -> inherits sup after (fun c => filter p (own c)) ds (filter p l)).
  Proof.
    apply inherit_ind.
    - intros c l _ IH Ha. rewrite filter_app. apply (Inh sup after (fun c => filter p (own c))). auto.
    - intros _. constructor.
    - intros d ds l ls _ IH1 _ IH2 Ha. pose proof (Ha d) as E. rewrite E. cbn [app]. rewrite filter_app.
      replace (filter p l ++ filter p ls) with (filter p l ++ after d ++ filter p ls) by now rewrite E. constructor; auto.
  Qed.
End Inherit.

(** an inherited list only depends on the ancestors *)
Lemma ancestor_trans g a b c : ancestor g a b -> ancestor g b c -> ancestor g a c.
Proof. intros H1 H2. induction H2 as [|x y Hy _ IH]; [exact H1|]. econstructor; eauto. Qed.
Lemma ancestor_head g a x : ancestor g a x -> x = a \/ exists d, In a (supers g d) /\ ancestor g d x.
Proof.
  induction 1 as [|x y Hy H [->|(d & H1 & H2)]]; [now left| |].
  - right. exists x. split; [exact Hy|constructor].
  - right. exists d. split; [exact H1|]. econstructor; eauto.
Qed.

Lemma inherited_frame_both sup after own sup' own' :
  (forall c l, inherited sup after own c l ->
     forall (P : nat -> Prop), P c -> (forall y, P y -> sup y = sup' y /\ own y = own' y) -> (forall x y, P x -> In y (sup x) -> P y) ->
     inherited sup' after own' c l) /\
  (forall ds l, inherits sup after own ds l ->
     forall (P : nat -> Prop), (forall d, In d ds -> P d) -> (forall y, P y -> sup y = sup' y /\ own y = own' y) -> (forall x y, P x -> In y (sup x) -> P y) ->
     inherits sup' after own' ds l).
Proof.
  apply inherit_ind.
  - intros c l _ IH P Hc HP Hs. destruct (HP c Hc) as [E1 E2]. rewrite E2. constructor. rewrite <- E1. apply (IH P); eauto.
  - intros. constructor.
  - intros d ds l ls _ IH1 _ IH2 P Hc HP Hs. constructor; [apply (IH1 P); auto; apply Hc; now left | apply (IH2 P); auto; intros; apply Hc; now right].
Qed.
Lemma inh_frame k g g' x l :
  (forall y, ancestor g' y x -> supers g y = supers g' y /\ own k g y = own k g' y) -> inh k g x l -> inh k g' x l.
Proof.
  intros H. unfold inh. intro Hi. apply (proj1 (inherited_frame_both _ _ _ _ _) _ _ Hi (fun y => ancestor g' y x)).
  - constructor.
  - exact H.
  - intros a b Ha Hb. rewrite (proj1 (H a Ha)) in Hb. eapply ancestor_trans; [|exact Ha]. econstructor; [exact Hb|constructor].
Qed.

(** members of inherited lists are own members of ancestors *)
Lemma inh_members_both k g :
  (forall c l, inh k g c l -> k <> KSup -> forall x, In x l -> exists y, ancestor g y c /\ In x (own k g y)) /\
  (forall ds l, inhs k g ds l -> k <> KSup -> forall x, In x l -> exists d y, In d ds /\ ancestor g y d /\ In x (own k g y)).
Proof.
  apply inherit_ind.
  - intros c l _ IH Hk x Hx. apply in_app_iff in Hx as [Hx|Hx].
    + destruct (IH Hk x Hx) as (d & y & Hd & Hy & Ho). exists y. split; [econstructor; eauto|exact Ho].
    + exists c. split; [constructor|exact Hx].
  - intros _ x [].
  - intros d ds l ls _ IH1 _ IH2 Hk x Hx. rewrite !in_app_iff in Hx. destruct Hx as [Hx|[Hx|Hx]].
    + destruct (IH1 Hk x Hx) as (y & Hy & Ho). exists d, y. split; [now left|auto].
    + destruct k; try congruence; destruct Hx.
    + destruct (IH2 Hk x Hx) as (d' & y & Hd & Hy & Ho). exists d', y. split; [now right|auto].
Qed.

(** where the members of an inherited list come from *)
Lemma inh_block_both k g :
  (forall c l, inh k g c l -> k <> KSup -> forall x, In x l ->
     exists o lo p q, ancestor g o c /\ inh k g o (lo ++ own k g o) /\ In x (own k g o) /\ l = p ++ (lo ++ own k g o) ++ q) /\
  (forall ds l, inhs k g ds l -> k <> KSup -> forall x, In x l ->
     exists d o lo p q, In d ds /\ ancestor g o d /\ inh k g o (lo ++ own k g o) /\ In x (own k g o) /\ l = p ++ (lo ++ own k g o) ++ q).
Proof.
  apply inherit_ind.
  - intros c l Hl IH Hk x Hx. apply in_app_iff in Hx as [Hx|Hx].
    + destruct (IH Hk x Hx) as (d & o & lo & p & q & Hd & Ha & H1 & H2 & ->).
      exists o, lo, p, (q ++ own k g c). split; [econstructor; eauto|]. split; [exact H1|]. split; [exact H2|]. now rewrite !app_assoc.
    + exists c, l, [], []. split; [constructor|]. split; [now constructor|]. split; [exact Hx|]. now rewrite app_nil_r.
  - intros _ x [].
  - intros d ds l ls Hl IH1 Hls IH2 Hk x Hx. assert (Ea : after_of k d = []) by (destruct k; auto; congruence).
    rewrite Ea in Hx |- *. cbn [app] in *. apply in_app_iff in Hx as [Hx|Hx].
    + destruct (IH1 Hk x Hx) as (o & lo & p & q & Ha & H1 & H2 & ->).
      exists d, o, lo, p, (q ++ ls). split; [now left|]. split; [exact Ha|]. split; [exact H1|]. split; [exact H2|]. now rewrite !app_assoc.
    + destruct (IH2 Hk x Hx) as (e & o & lo & p & q & Hd & Ha & H1 & H2 & ->).
      exists e, o, lo, (l ++ p), q. split; [now right|]. split; [exact Ha|]. split; [exact H1|]. split; [exact H2|]. now rewrite !app_assoc.
Qed.

(** super types are the proper ancestors *)
Lemma supertypes_both g :
  (forall c l, inh KSup g c l -> forall x, In x l <-> exists d, In d (supers g c) /\ ancestor g x d) /\
  (forall ds l, inhs KSup g ds l -> forall x, In x l <-> exists d, In d ds /\ ancestor g x d).
Proof.
  apply inherit_ind.
  - intros c l _ IH x. cbn. now rewrite app_nil_r.
  - intros x. cbn. split; [tauto|]. intros (d & [] & _).
  - intros d ds l ls _ IH1 _ IH2 x. rewrite !in_app_iff, IH1, IH2. cbn. split.
    + intros [(e & He & Ha)|[[<-|[]]|(e & He & Ha)]].
      * exists d. split; [now left|econstructor; eauto].
      * exists d. split; [now left|constructor].
      * exists e. auto.
    + intros (e & [<-|He] & Ha); [|eauto].
      inversion Ha as [|? y Hy Ha']; subst; eauto.
Qed.

(** *** State updates *)
Lemma kind_eqb_spec a b : reflect (a = b) (kind_eqb a b).
Proof. destruct a, b; constructor; congruence. Qed.
Lemma kind_eqb_refl a : kind_eqb a a = true.
Proof. now destruct a. Qed.
Lemma upd_same {X} (f : nat -> X) c x : upd f c x c = x.
Proof. unfold upd. now rewrite Nat.eqb_refl. Qed.
Lemma upd_other {X} (f : nat -> X) c x d : d <> c -> upd f c x d = f d.
Proof. unfold upd. destruct (Nat.eqb_spec d c); congruence. Qed.
Lemma cache_set s k c v k' d :
  cache (setCache s k c v) k' d = if kind_eqb k' k && Nat.eqb d c then v else cache s k' d.
Proof. cbn. destruct (kind_eqb k' k); [|reflexivity]. unfold upd. now destruct (Nat.eqb d c). Qed.

(** *** The invariant *)
Definition sid_ok (s : cstate) (b : bool) (k : kind) : Prop :=
  forall c l, cache s k c = Some l -> forall j x, nth_error (own k (gr s) c) j = Some x ->
  sid s b x = zlen l - zlen (own k (gr s) c) + Z.of_nat j.
Definition id_list (g : graph) (l : list nat) : list nat :=
  match find (fun f => isID (info g f)) l with Some f => [f] | None => [] end.
Definition name_map (g : graph) (l : list nat) : nat -> option nat :=
  fold_left (fun m f => mapPut m (fname (info g f)) f) l (fun _ => None).
Definition own_cont (g : graph) (c : nat) : list nat :=
  filter (fun f => isRef (info g f) && isContainment (info g f) && negb (isDerived (info g f))) (feats g c).
Definition own_cross (g : graph) (c : nat) : list nat :=
  filter (fun f => isRef (info g f) && negb (isContainment (info g f)) && negb (isContainer (info g f)) && negb (isDerived (info g f))) (feats g c).

Section ClassProofs.
  Variable overrides : nat -> nat -> bool.

  (** the caches *)
  Record valid (s : cstate) : Prop := {
    v_main : forall k c l, is_main k -> cache s k c = Some l -> inh k (gr s) c l;
    v_closed : forall k c d, is_main k -> cache s k c <> None -> In d (supers (gr s) c) -> cache s k d <> None;
    v_attr : forall c l, cache s KAttr c = Some l -> cache s KOwnAttr c = Some (own KAttr (gr s) c) /\ cache s KId c = Some (id_list (gr s) l);
    v_ref : forall c l, cache s KRef c = Some l -> cache s KOwnRef c = Some (own KRef (gr s) c);
    v_cont : forall c l, cache s KCont c = Some l -> exists L, inh KRef (gr s) c L /\ l = filter (fun f => isContainment (info (gr s) f)) L;
    v_sub : forall c l, cache s KFeat c = Some l ->
            cache s KOwnCont c = None \/ (cache s KOwnCont c = Some (own_cont (gr s) c) /\ cache s KOwnCross c = Some (own_cross (gr s) c));
    v_name : forall c l, cache s KFeat c = Some l -> forall m, nameMap s c = Some m -> forall n, m n = name_map (gr s) l n;
    v_over : forall c l, cache s KOps c = Some l -> forall m, overMap s c = Some m -> m = buildOver overrides l (fun _ => None);
    v_fid : sid_ok s true KFeat;
    v_oid : sid_ok s false KOps }.

  Definition mirrored (s : cstate) : Prop :=
    forall c d, count_occ Nat.eq_dec (subs s d) c = count_occ Nat.eq_dec (supers (gr s) c) d.
  Definition inv (n : nat) (s : cstate) : Prop := ok_graph n (gr s) /\ mirrored s /\ valid s.

  (** *** Computing *)
  (** what computing a view may change *)
  Record grows (k : kind) (s s' : cstate) : Prop := {
    g_gr : gr s' = gr s; g_subs : subs s' = subs s;
    g_main : forall k' c l, is_main k' -> cache s k' c = Some l -> cache s' k' c <> None;
    g_cont : forall k' c, k' = KCont \/ k' = KCross -> cache s' k' c = cache s k' c;
    g_sub : forall c, cache s KOwnCont c = None -> cache s' KOwnCont c = None;
    g_name : forall c, nameMap s c = None -> nameMap s' c = None;
    g_over : forall c, overMap s c = None -> overMap s' c = None }.
  Lemma grows_refl k s : grows k s s.
  Proof. constructor; auto. congruence. Qed.
  Lemma grows_trans k s1 s2 s3 : grows k s1 s2 -> grows k s2 s3 -> grows k s1 s3.
  Proof.
    intros [A1 A2 A3 A4 A5 A6 A7] [B1 B2 B3 B4 B5 B6 B7]. constructor; try congruence; auto.
    - intros k' c l Hm H. specialize (A3 k' c l Hm H). destruct (cache s2 k' c) as [l2|] eqn:E; [|congruence]. exact (B3 k' c l2 Hm E).
    - intros k' c Hk. rewrite (B4 k' c Hk). now apply A4.
  Qed.

  Lemma not_main k : is_main k -> k <> KCont /\ k <> KCross /\ k <> KOwnAttr /\ k <> KOwnRef /\ k <> KOwnCont /\ k <> KOwnCross /\ k <> KId.
  Proof. unfold is_main. cbn. intuition congruence. Qed.

  Lemma pre_valid k s c : is_main k -> valid s -> cache s k c = None -> valid (pre k s c) /\ grows k s (pre k s c).
  Proof.
    intros Hm V N. destruct k; try (split; [exact V|apply grows_refl]).
    - (* KFeat *)
      assert (Ec : forall k' d, cache (pre KFeat s c) k' d = if (kind_eqb k' KOwnCross || kind_eqb k' KOwnCont) && Nat.eqb d c then None else cache s k' d).
      { intros k' d. unfold pre, setNames. cbn [cache]. rewrite !cache_set. now destruct (kind_eqb k' KOwnCross), (kind_eqb k' KOwnCont), (Nat.eqb d c). }
      assert (Em : forall k' d, kind_eqb k' KOwnCross = false -> kind_eqb k' KOwnCont = false -> cache (pre KFeat s c) k' d = cache s k' d).
      { intros k' d E1 E2. rewrite Ec, E1, E2. reflexivity. }
      assert (Emm : forall k' d, is_main k' -> cache (pre KFeat s c) k' d = cache s k' d).
      { intros k' d Hk. apply Em; destruct (kind_eqb_spec k' KOwnCross), (kind_eqb_spec k' KOwnCont); auto; apply not_main in Hk; tauto. }
      change (gr (pre KFeat s c)) with (gr s). destruct V as [V1 V2 V3 V4 V5 V6 V7 V8 V9 V10].
      split.
      + constructor; change (gr (pre KFeat s c)) with (gr s).
        * intros k' d l Hk. rewrite Emm by exact Hk. eauto.
        * intros k' d e Hk. rewrite !Emm by exact Hk. eauto.
        * intros d l. rewrite (Em KAttr d), (Em KOwnAttr d), (Em KId d) by reflexivity. auto.
        * intros d l. rewrite (Em KRef d), (Em KOwnRef d) by reflexivity. eauto.
        * intros d l. rewrite (Em KCont d) by reflexivity. auto.
        * intros d l. rewrite Em by reflexivity. intro H. rewrite !Ec. cbn. destruct (Nat.eqb_spec d c) as [->|Hd]; [auto|]. eauto.
        * intros d l. rewrite Em by reflexivity. intro H. change (nameMap (pre KFeat s c)) with (upd (nameMap s) c None). intros m.
          destruct (Nat.eqb_spec d c) as [->|Hd]; [rewrite upd_same; discriminate|]. rewrite upd_other by exact Hd. eauto.
        * intros d l. rewrite Em by reflexivity. apply V8.
        * intros d l. rewrite Em by reflexivity. apply V9.
        * intros d l. rewrite Em by reflexivity. apply V10.
      + constructor; auto.
        * intros k' d l Hk H. rewrite Emm by exact Hk. congruence.
        * intros k' d [->| ->]; apply Em; reflexivity.
        * intros d H. rewrite Ec. cbn. now destruct (Nat.eqb d c).
        * intros d H. change (nameMap (pre KFeat s c)) with (upd (nameMap s) c None). unfold upd. now destruct (Nat.eqb d c).
    - (* KOps *)
      destruct V as [V1 V2 V3 V4 V5 V6 V7 V8 V9 V10]. split.
      + constructor; auto. intros d l H m. cbn. intro Q. destruct (Nat.eqb_spec d c) as [->|Hd].
        * rewrite upd_same in Q. discriminate.
        * rewrite upd_other in Q by exact Hd. exact (V8 d l H m Q).
      + constructor; auto; [intros k' d l _ H; cbn; congruence|]. intros d H. cbn. unfold upd. now destruct (Nat.eqb d c).
  Qed.

  Lemma assignIds_other l : forall f i x, ~ In x l -> assignIds f i l x = f x.
  Proof.
    induction l as [|y l IH]; intros f i x H; cbn; [reflexivity|]. rewrite IH by (intro; apply H; now right).
    apply upd_other. intros ->. apply H. now left.
  Qed.
  Lemma assignIds_nth l : NoDup l -> forall f i j x, nth_error l j = Some x -> assignIds f i l x = i + Z.of_nat j.
  Proof.
    induction 1 as [|y l Hn Hd IH]; intros f i j x H; [now destruct j|]. cbn [assignIds]. destruct j as [|j]; cbn in H.
    - injection H as ->. rewrite assignIds_other by exact Hn. rewrite upd_same. lia.
    - rewrite (IH _ _ j x H). lia.
  Qed.

  Lemma main_cases k : is_main k -> k = KSup \/ k = KAttr \/ k = KRef \/ k = KFeat \/ k = KOps.
  Proof. unfold is_main. cbn. intuition. Qed.

  (** the caches after [post] *)
  Definition post_gr k s c l : gr (post k s c l) = gr s.
  Proof. now destruct k. Qed.
  Lemma post_main k s c l k' d : is_main k -> is_main k' ->
    cache (post k s c l) k' d = if kind_eqb k' k && Nat.eqb d c then Some (l ++ own k (gr s) c) else cache s k' d.
  Proof.
    intros Hk Hk'. apply main_cases in Hk, Hk'.
    decompose [or] Hk; decompose [or] Hk'; subst; unfold post; rewrite ?cache_set; cbn [kind_eqb andb setSids cache]; reflexivity.
  Qed.
  Lemma post_cont k s c l k' d : is_main k -> k' = KCont \/ k' = KCross \/ k' = KOwnCont \/ k' = KOwnCross -> cache (post k s c l) k' d = cache s k' d.
  Proof.
    intros Hk Hk'. apply main_cases in Hk. decompose [or] Hk; decompose [or] Hk'; subst; unfold post; rewrite ?cache_set; reflexivity.
  Qed.

  Lemma zlen_minus {A} (a b : list A) : zlen (a ++ b) - zlen b = zlen a.
  Proof. rewrite zlen_app. lia. Qed.

  Lemma post_valid k s c l :
    is_main k -> owned (feats (gr s)) -> owned (opers (gr s)) -> valid s ->
    inhs k (gr s) (supers (gr s) c) l -> (forall d, In d (supers (gr s) c) -> cache s k d <> None) ->
    (k = KFeat -> cache s KOwnCont c = None /\ nameMap s c = None) -> (k = KOps -> overMap s c = None) ->
    valid (post k s c l) /\ grows k s (post k s c l).
  Proof.
    intros Hm Of Oo V Hl Hs Hpf Hpo.
    assert (Hc : inh k (gr s) c (l ++ own k (gr s) c)) by (constructor; exact Hl).
    pose proof V as [V1 V2 V3 V4 V5 V6 V7 V8 V9 V10].
    split.
    - constructor; rewrite ?post_gr.
      + intros k' d l' Hk'. rewrite post_main by auto. destruct (kind_eqb_spec k' k) as [->|]; cbn [andb]; [|now apply V1].
        destruct (Nat.eqb_spec d c) as [->|]; [|now apply V1]. intro Q; injection Q as <-. exact Hc.
      + intros k' d e Hk'. rewrite !post_main by auto. destruct (kind_eqb_spec k' k) as [->|]; cbn [andb]; [|now apply V2].
        destruct (Nat.eqb_spec d c) as [->|]; destruct (Nat.eqb_spec e c) as [->|]; try congruence; eauto.
      + intros d l'. rewrite post_main by (auto; unfold is_main; cbn; auto 10). apply main_cases in Hm.
        decompose [or] Hm; subst; unfold post; rewrite ?cache_set; cbn [kind_eqb andb setSids cache]; auto.
        destruct (Nat.eqb_spec d c) as [->|]; [|auto]. intro Q; injection Q as <-. auto.
      + intros d l'. rewrite post_main by (auto; unfold is_main; cbn; auto 10). apply main_cases in Hm.
        decompose [or] Hm; subst; unfold post; rewrite ?cache_set; cbn [kind_eqb andb setSids cache]; eauto.
        destruct (Nat.eqb_spec d c) as [->|]; eauto.
      + intros d l'. rewrite post_cont by auto. apply V5.
      + intros d l'. rewrite post_main by (auto; unfold is_main; cbn; auto 10). rewrite !post_cont by auto.
        destruct (kind_eqb_spec KFeat k) as [E|]; cbn [andb]; [|apply V6].
        destruct (Nat.eqb_spec d c) as [->|]; [|apply V6]. intros _. left. now apply Hpf.
      + intros d l'. rewrite post_main by (auto; unfold is_main; cbn; auto 10).
        assert (En : nameMap (post k s c l) = nameMap s) by (destruct k; reflexivity). rewrite En.
        destruct (kind_eqb_spec KFeat k) as [E|]; cbn [andb]; [|apply V7].
        destruct (Nat.eqb_spec d c) as [->|]; [|apply V7]. intros _ m Q. rewrite (proj2 (Hpf (eq_sym E))) in Q. discriminate.
      + intros d l'. rewrite post_main by (auto; unfold is_main; cbn; auto 10).
        assert (En : overMap (post k s c l) = overMap s) by (destruct k; reflexivity). rewrite En.
        destruct (kind_eqb_spec KOps k) as [E|]; cbn [andb]; [|apply V8].
        destruct (Nat.eqb_spec d c) as [->|]; [|apply V8]. intros _ m Q. rewrite (Hpo (eq_sym E)) in Q. discriminate.
      + intros d l'. rewrite post_main, post_gr by (auto; unfold is_main; cbn; auto 10).
        destruct (kind_eqb_spec KFeat k) as [<-|E]; cbn [andb].
        * change (sid (post KFeat s c l) true) with (assignIds (sid s true) (zlen l) (own KFeat (gr s) c)).
          destruct (Nat.eqb_spec d c) as [->|Nd].
          -- intro Q; injection Q as <-. intros j x Hj. rewrite (assignIds_nth _ (proj1 Of c) _ _ j x Hj), zlen_minus. reflexivity.
          -- intros Hd j x Hj. rewrite assignIds_other; [now apply V9|].
             intro Hx. apply Nd. apply (proj2 Of d c x); [|exact Hx]. apply nth_error_In in Hj. exact Hj.
        * assert (Es : sid (post k s c l) true = sid s true) by (destruct k; auto; congruence). rewrite Es. apply V9.
      + intros d l'. rewrite post_main, post_gr by (auto; unfold is_main; cbn; auto 10).
        destruct (kind_eqb_spec KOps k) as [<-|E]; cbn [andb].
        * change (sid (post KOps s c l) false) with (assignIds (sid s false) (zlen l) (own KOps (gr s) c)).
          destruct (Nat.eqb_spec d c) as [->|Nd].
          -- intro Q; injection Q as <-. intros j x Hj. rewrite (assignIds_nth _ (proj1 Oo c) _ _ j x Hj), zlen_minus. reflexivity.
          -- intros Hd j x Hj. rewrite assignIds_other; [now apply V10|].
             intro Hx. apply Nd. apply (proj2 Oo d c x); [|exact Hx]. apply nth_error_In in Hj. exact Hj.
        * assert (Es : sid (post k s c l) false = sid s false) by (destruct k; auto; congruence). rewrite Es. apply V10.
    - constructor; try (now destruct k).
      + intros k' d l' Hk' H. rewrite post_main by auto. destruct (kind_eqb k' k && Nat.eqb d c); congruence.
      + intros k' d [->| ->]; apply post_cont; auto.
      + intros d H. rewrite post_cont by auto. exact H.
  Qed.

  Section Compute.
    Variables (k : kind) (Hm : is_main k).
    Variables (rank : nat -> nat) (g : graph).
    Hypothesis Hrank : forall c d, In d (supers g c) -> (rank d < rank c)%nat.
    Hypothesis Hf : owned (feats g).
    Hypothesis Ho : owned (opers g).

    Definition computes (get : cstate -> nat -> option (cstate * list nat)) (s : cstate) (c : nat) : Prop :=
      exists s' l, get s c = Some (s', l) /\ valid s' /\ grows k s s' /\ inh k g c l /\ cache s' k c = Some l.

    Lemma gather_ok get ds : forall s,
      gr s = g -> valid s ->
      (forall d s, In d ds -> gr s = g -> valid s -> computes get s d) ->
      exists s' l, gather get k ds s = Some (s', l) /\ valid s' /\ grows k s s' /\ inhs k g ds l /\
                   (forall d, In d ds -> cache s' k d <> None).
    Proof.
      induction ds as [|d ds IH]; intros s Eg V H; cbn [gather].
      - exists s, []. split; [reflexivity|]. split; [exact V|]. split; [apply grows_refl|]. split; [constructor|intros d []].
      - destruct (H d s (or_introl eq_refl) Eg V) as (s1 & ld & E1 & V1 & G1 & I1 & C1). rewrite E1. cbn [obind].
        destruct (IH s1) as (s2 & ls & E2 & V2 & G2 & I2 & C2).
        { rewrite (g_gr _ _ _ G1). exact Eg. }
        { exact V1. }
        { intros e s0 He. apply H. now right. }
        rewrite E2. cbn [obind]. exists s2, (ld ++ (match k with KSup => [d] | _ => [] end) ++ ls).
        split; [reflexivity|]. split; [exact V2|]. split; [eapply grows_trans; eauto|]. split.
        + change (inhs k g (d :: ds) (ld ++ after_of k d ++ ls)) || (replace (match k with KSup => [d] | _ => [] end) with (after_of k d) by now destruct k).
          now constructor.
        + intros e [<-|He]; [|auto]. exact (g_main _ _ _ G2 k d ld Hm C1).
    Qed.

    Lemma getAll_ok fuel : forall s c, gr s = g -> valid s -> (rank c < fuel)%nat -> computes (getAll fuel k) s c.
    Proof.
      induction fuel as [|n IH]; intros s c Eg V Hr; [lia|]. unfold computes. cbn [getAll].
      destruct (cache s k c) as [l|] eqn:Ec.
      - exists s, l. split; [reflexivity|]. split; [exact V|]. split; [apply grows_refl|]. split; [|exact Ec].
        rewrite <- Eg. now apply (v_main s V).
      - destruct (pre_valid k s c Hm V Ec) as [V1 G1].
        assert (Eg1 : gr (pre k s c) = g) by (rewrite (g_gr _ _ _ G1); exact Eg).
        rewrite Eg1.
        destruct (gather_ok (getAll n k) (supers g c) (pre k s c) Eg1 V1) as (s2 & l & E2 & V2 & G2 & I2 & C2).
        { intros d s0 Hd Eg0 V0. apply IH; auto. specialize (Hrank c d Hd). lia. }
        rewrite E2. cbn [obind]. assert (Eg2 : gr s2 = g) by (rewrite (g_gr _ _ _ G2); exact Eg1).
        rewrite Eg2. rewrite <- Eg2 in I2, Hf, Ho.
        destruct (post_valid k s2 c l Hm Hf Ho V2) as [V3 G3].
        + rewrite Eg2 in I2 |- *. exact I2.
        + rewrite Eg2. exact C2.
        + intros ->. split.
          * apply (g_sub _ _ _ G2). cbn [pre setNames cache]. rewrite cache_set, kind_eqb_refl, Nat.eqb_refl. reflexivity.
          * apply (g_name _ _ _ G2). cbn. apply upd_same.
        + intros ->. apply (g_over _ _ _ G2). cbn. apply upd_same.
        + exists (post k s2 c l), (l ++ own k g c). split; [reflexivity|]. split; [exact V3|]. split; [eapply grows_trans; [exact G1|]; eapply grows_trans; eauto|].
          split.
          * constructor. rewrite Eg2 in I2. exact I2.
          * rewrite post_main by auto. rewrite kind_eqb_refl, Nat.eqb_refl, Eg2. reflexivity.
    Qed.
  End Compute.
End ClassProofs.
