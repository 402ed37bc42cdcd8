(** Proofs about derived views of classes: invalidation. *)
From Coq Require Import Permutation.
From Verif Require Import Base ListModel ListSpec ListProofs CallbackProofs NotifyModel NotifySpec NotifyProofs ClassModel ClassSpec ClassProofs ClassProofs2.

Lemma kind_eq_dec (a b : kind) : {a = b} + {a <> b}.
Proof. decide equality. Defined.

(** *** setModified *)
Record clearedFrom (g : graph) (m : modified) (c : nat) (s s' : cstate) : Prop := {
  cl_gr : gr s' = gr s; cl_subs : subs s' = subs s; cl_name : nameMap s' = nameMap s; cl_over : overMap s' = overMap s; cl_sid : sid s' = sid s;
  cl_kept : forall k x, cache s' k x = cache s k x \/ (cache s' k x = None /\ In k (clears m) /\ ancestor g c x);
  cl_gone : forall k x, In k (clears m) -> ancestor g c x -> cache s' k x = None }.

Lemma clear_fold c ks : forall s,
  let s' := fold_left (fun s k => setCache s k c None) ks s in
  gr s' = gr s /\ subs s' = subs s /\ nameMap s' = nameMap s /\ overMap s' = overMap s /\ sid s' = sid s /\
  (forall k x, cache s' k x = cache s k x \/ (cache s' k x = None /\ In k ks /\ x = c)) /\
  (forall k, In k ks -> cache s' k c = None).
Proof.
  induction ks as [|k0 ks IH]; intro s; cbn [fold_left].
  - split; [reflexivity|]. split; [reflexivity|]. split; [reflexivity|]. split; [reflexivity|]. split; [reflexivity|]. split; [auto|intros k []].
  - cbv zeta. destruct (IH (setCache s k0 c None)) as (A1 & A2 & A3 & A4 & A5 & A6 & A7).
    split; [exact A1|]. split; [exact A2|]. split; [exact A3|]. split; [exact A4|]. split; [exact A5|]. split.
    + intros k x. destruct (A6 k x) as [E|(E & Hk & Hx)].
      * rewrite E, cache_set. destruct (kind_eqb_spec k k0) as [->|]; cbn [andb]; [|auto].
        destruct (Nat.eqb_spec x c) as [->|]; [|auto]. right. split; [reflexivity|]. split; [now left|reflexivity].
      * right. split; [exact E|]. split; [now right|exact Hx].
    + intros k [->|Hk]; [|auto]. destruct (A6 k c) as [E|(E & _)]; [|exact E].
      rewrite E, cache_set, kind_eqb_refl, Nat.eqb_refl. reflexivity.
Qed.

Lemma setModified_ok m g rank N :
  (forall c, (rank c < N)%nat) -> (forall c d, In d (supers g c) -> (rank d < rank c)%nat) ->
  forall fuel s c, (forall x y, In x (subs s y) <-> In y (supers g x)) -> (N <= rank c + fuel)%nat ->
  exists s', setModified fuel m s c = Some s' /\ clearedFrom g m c s s'.
Proof.
  intros Hb Hr. induction fuel as [|n IH]; intros s c Hs Hf; [specialize (Hb c); lia|]. cbn [setModified].
  destruct (clear_fold c (clears m) s) as (A1 & A2 & A3 & A4 & A5 & A6 & A7). cbv zeta in *.
  set (s1 := fold_left (fun s k => setCache s k c None) (clears m) s) in *.
  assert (F : forall ds s2, (forall d, In d ds -> In c (supers g d)) -> subs s2 = subs s ->
    exists s', fold_left (fun os d => let? s' := os in setModified n m s' d) ds (Some s2) = Some s' /\
      gr s' = gr s2 /\ subs s' = subs s2 /\ nameMap s' = nameMap s2 /\ overMap s' = overMap s2 /\ sid s' = sid s2 /\
      (forall k x, cache s' k x = cache s2 k x \/ (cache s' k x = None /\ In k (clears m) /\ exists d, In d ds /\ ancestor g d x)) /\
      (forall k x d, In k (clears m) -> In d ds -> ancestor g d x -> cache s' k x = None)).
  { induction ds as [|d ds IHds]; intros s2 Hd Es; cbn [fold_left].
    - exists s2. split; [reflexivity|]. repeat (split; [reflexivity|]). split; [auto|]. intros k x d _ [].
    - destruct (IH s2 d) as (s3 & E3 & C3).
      { intros x y. rewrite Es. apply Hs. }
      { specialize (Hr d c (Hd d (or_introl eq_refl))). lia. }
      cbn [obind]. rewrite E3. destruct C3 as [B1 B2 B3 B4 B5 B6 B7].
      destruct (IHds s3) as (s' & E' & D1 & D2 & D3 & D4 & D5 & D6 & D7).
      { intros e He. apply Hd. now right. }
      { congruence. }
      exists s'. split; [exact E'|]. split; [congruence|]. split; [congruence|]. split; [congruence|]. split; [congruence|]. split; [congruence|]. split.
      + intros k x. destruct (D6 k x) as [Q|(Q & Hk & e & He & Ha)].
        * destruct (B6 k x) as [Q'|(Q' & Hk & Ha)]; [left; congruence|]. right. split; [congruence|]. split; [exact Hk|]. exists d. split; [now left|exact Ha].
        * right. split; [exact Q|]. split; [exact Hk|]. exists e. split; [now right|exact Ha].
      + intros k x e Hk [<-|He] Ha; [|eauto]. destruct (D6 k x) as [Q|(Q & _)]; [|exact Q]. rewrite Q. now apply B7. }
  destruct (F (subs s c) s1) as (s' & E' & D1 & D2 & D3 & D4 & D5 & D6 & D7).
  { intros d Hd. now apply Hs. }
  { exact A2. }
  exists s'. split; [exact E'|]. constructor; try congruence.
  - intros k x. destruct (D6 k x) as [Q|(Q & Hk & d & Hd & Ha)].
    + destruct (A6 k x) as [Q'|(Q' & Hk & ->)]; [left; congruence|]. right. split; [congruence|]. split; [exact Hk|constructor].
    + right. split; [exact Q|]. split; [exact Hk|]. apply (ancestor_trans g c d x); [|exact Ha].
      econstructor; [apply Hs; exact Hd|constructor].
  - intros k x Hk Ha. destruct (ancestor_head g c x Ha) as [->|(d & Hd & Ha')].
    + destruct (D6 k c) as [Q|(Q & _)]; [|exact Q]. rewrite Q. now apply A7.
    + apply (D7 k x d); auto. now apply Hs.
Qed.

(** *** What survives a change of the graph *)
Definition noid (i : finfo) : finfo := withID i false.
Definition agree_at (k : kind) (g g' : graph) (y : nat) : Prop :=
  supers g y = supers g' y /\
  match k with
  | KSup => True
  | KOps => opers g y = opers g' y
  | KAttr => feats g y = feats g' y /\ forall f, In f (feats g y) -> info g f = info g' f
  | _ => feats g y = feats g' y /\ forall f, In f (feats g y) -> noid (info g f) = noid (info g' f)
  end.
Definition base (k : kind) : kind := match k with KCont => KRef | k => k end.

Lemma noid_fields i i' : noid i = noid i' ->
  isRef i = isRef i' /\ isContainment i = isContainment i' /\ isContainer i = isContainer i' /\ isDerived i = isDerived i' /\ fname i = fname i'.
Proof. unfold noid, withID. intro H. injection H. auto. Qed.

Lemma filter_ext_in' {A} (p q : A -> bool) l : (forall x, In x l -> p x = q x) -> filter p l = filter q l.
Proof. apply filter_ext_in. Qed.

Lemma agree_own k g g' y : agree_at k g g' y -> own k g y = own k g' y.
Proof.
  intros [_ H]. destruct k; cbn [own]; try reflexivity; try exact H; destruct H as [H1 H2]; rewrite <- H1; try reflexivity;
    apply filter_ext_in; intros f Hf; [now rewrite (H2 f Hf)|]; now destruct (noid_fields _ _ (H2 f Hf)) as (-> & _).
Qed.
Lemma agree_inh k g g' x l : (forall y, ancestor g' y x -> agree_at k g g' y) -> inh k g x l -> inh k g' x l.
Proof.
  intros H. apply inh_frame. intros y Hy. split; [apply H; exact Hy|]. apply agree_own. now apply H.
Qed.
Lemma find_ext_in {A} (p q : A -> bool) l : (forall x, In x l -> p x = q x) -> find p l = find q l.
Proof. induction l as [|x l IH]; intro H; cbn; [reflexivity|]. rewrite (H x (or_introl eq_refl)). rewrite IH; [reflexivity|]. intros; apply H; now right. Qed.

Section History.
  Variable overrides : nat -> nat -> bool.
  Notation valid := (valid overrides).
  Notation inv := (inv overrides).

  Lemma own_in_feats k g y f : In f (own k g y) -> k = KAttr \/ k = KRef \/ k = KFeat -> In f (feats g y).
  Proof. intros H [->|[->| ->]]; cbn [own] in H; try exact H; now apply filter_In in H. Qed.

  Lemma transfer s s' :
    valid s ->
    (forall k x, cache s' k x = cache s k x \/ (cache s' k x = None /\ (is_main k \/ k = KCont))) ->
    nameMap s' = nameMap s -> overMap s' = overMap s -> sid s' = sid s ->
    (forall k x d, is_main k -> cache s' k x <> None -> In d (supers (gr s') x) -> cache s' k d <> None) ->
    (forall k x, is_main k \/ k = KCont -> cache s' k x <> None -> forall y, ancestor (gr s') y x -> agree_at (base k) (gr s) (gr s') y) ->
    valid s'.
  Proof.
    intros [V1 V2 V3 V4 V5 V6 V7 V8 V9 V10] Hc En Eo Es Hcl Ha.
    assert (S : forall k x l, cache s' k x = Some l -> cache s k x = Some l).
    { intros k x l H. destruct (Hc k x) as [E|[E _]]; congruence. }
    assert (O : forall k x, ~ is_main k -> k <> KCont -> cache s' k x = cache s k x).
    { intros k x N1 N2. destruct (Hc k x) as [E|[_ [H|H]]]; tauto. }
    assert (Mat : is_main KAttr) by (unfold is_main; cbn; auto).
    assert (Mref : is_main KRef) by (unfold is_main; cbn; auto).
    assert (Mft : is_main KFeat) by (unfold is_main; cbn; auto).
    assert (Mop : is_main KOps) by (unfold is_main; cbn; auto 6).
    assert (Am : forall k x l, is_main k -> cache s' k x = Some l -> forall y, ancestor (gr s') y x -> agree_at k (gr s) (gr s') y).
    { intros k x l Hk H y Hy. replace k with (base k); [apply (Ha k x); auto; congruence|].
      apply main_cases in Hk. decompose [or] Hk; subst; reflexivity. }
    assert (Ac : forall k x l, is_main k -> cache s' k x = Some l -> agree_at k (gr s) (gr s') x).
    { intros k x l Hk H. apply (Am k x l Hk H). constructor. }
    assert (Nm : forall k, k = KOwnAttr \/ k = KOwnRef \/ k = KOwnCont \/ k = KOwnCross \/ k = KId -> ~ is_main k /\ k <> KCont).
    { intros k Hk. split; [|intuition congruence]. intro Q. apply not_main in Q. intuition congruence. }
    assert (Mem : forall k x l f, is_main k -> cache s' k x = Some l -> k = KAttr \/ k = KRef \/ k = KFeat -> In f l ->
                  exists y, agree_at k (gr s) (gr s') y /\ In f (feats (gr s) y)).
    { intros k x l f Hk H Hk' Hf. pose proof (agree_inh k (gr s) (gr s') x l (Am k x l Hk H) (V1 k x l Hk (S _ _ _ H))) as Hi.
      destruct (proj1 (inh_members_both k (gr s')) x l Hi) with (x := f) as (y & Hy & Hfy); [intuition congruence|exact Hf|].
      pose proof (Am k x l Hk H y Hy) as Hag. exists y. split; [exact Hag|]. rewrite <- (agree_own k _ _ y Hag) in Hfy. eapply own_in_feats; eauto. }
    constructor.
    - intros k x l Hk H. apply (agree_inh k (gr s)); [now apply (Am k x l)|]. now apply V1, S.
    - exact Hcl.
    - intros x l H. destruct (V3 x l (S _ _ _ H)) as [H1 H2]. rewrite !O by (apply Nm; auto 6). rewrite H1, H2. split.
      + f_equal. apply agree_own. now apply (Ac KAttr x l).
      + f_equal. unfold id_list. erewrite find_ext_in; [reflexivity|]. intros f Hf. cbn.
        destruct (Mem KAttr x l f Mat H (or_introl eq_refl) Hf) as (y & [_ [_ Hy]] & Hfy). now rewrite (Hy f Hfy).
    - intros x l H. rewrite !O by (apply Nm; auto 6). rewrite (V4 x l (S _ _ _ H)). f_equal. apply agree_own. now apply (Ac KRef x l).
    - intros x l H. destruct (V5 x l (S _ _ _ H)) as (L & HL & El).
      assert (Hag : forall y, ancestor (gr s') y x -> agree_at KRef (gr s) (gr s') y).
      { intros y Hy. apply (Ha KCont x); auto. congruence. }
      exists L. split; [exact (agree_inh KRef _ _ _ _ Hag HL)|]. rewrite El. apply filter_ext_in. intros f Hf.
      destruct (proj1 (inh_members_both KRef (gr s')) x L (agree_inh KRef _ _ _ _ Hag HL)) with (x := f) as (y & Hy & Hfy); [discriminate|exact Hf|].
      pose proof (Hag y Hy) as Hy'. rewrite <- (agree_own KRef _ _ y Hy') in Hfy. destruct Hy' as [_ [_ Hy']].
      destruct (noid_fields _ _ (Hy' f (own_in_feats KRef _ _ _ Hfy (or_intror (or_introl eq_refl))))) as (_ & -> & _). reflexivity.
    - intros x l H. rewrite !O by (apply Nm; auto 6). destruct (V6 x l (S _ _ _ H)) as [Q|[Q1 Q2]]; [now left|right].
      destruct (Ac KFeat x l Mft H) as [_ [Ef Ei]].
      rewrite Q1, Q2. split; f_equal; unfold own_cont, own_cross; rewrite <- Ef; apply filter_ext_in; intros f Hf;
        destruct (noid_fields _ _ (Ei f Hf)) as (E1 & E2 & E3 & E4 & _); rewrite ?E1, ?E2, ?E3, ?E4; reflexivity.
    - intros x l H mp Hm n. rewrite En in Hm. rewrite (V7 x l (S _ _ _ H) mp Hm n). rewrite !name_map_spec. apply find_ext_in.
      intros f Hf. apply in_rev in Hf. destruct (Mem KFeat x l f Mft H (or_intror (or_intror eq_refl)) Hf) as (y & [_ [_ Hy]] & Hfy).
      destruct (noid_fields _ _ (Hy f Hfy)) as (_ & _ & _ & _ & ->). reflexivity.
    - intros x l H mp Hm. rewrite Eo in Hm. exact (V8 x l (S _ _ _ H) mp Hm).
    - intros x l H j f. rewrite <- (agree_own KFeat _ _ x (Ac KFeat x l Mft H)), Es. exact (V9 x l (S _ _ _ H) j f).
    - intros x l H j f. rewrite <- (agree_own KOps _ _ x (Ac KOps x l Mop H)), Es. exact (V10 x l (S _ _ _ H) j f).
  Qed.

  (** *** Notifications of the list of super types *)
  Definition lost (n : notification nat) : list nat :=
    match evt n with SET | REMOVE | REMOVE_MANY => objs (oldValue n) | _ => [] end.
  Definition gained (n : notification nat) : list nat :=
    match evt n with SET | ADD | ADD_MANY => objs (newValue n) | _ => [] end.

  Lemma rap_smaller {A} (s : list A) : forall i p ps, p < i -> remove_at_positions i s (p :: ps) = remove_at_positions i s ps.
  Proof.
    induction s as [|x s IH]; intros i p ps H; cbn; [reflexivity|]. destruct (Z.eqb_spec i p) as [->|]; [lia|]. cbn [orb].
    rewrite !IH by lia. reflexivity.
  Qed.
  Lemma increasing_lower ps : forall lo n p, increasing lo ps n -> In p ps -> lo <= p < n.
  Proof.
    induction ps as [|q ps IH]; intros lo n p H Hp; [destruct Hp|]. cbn [increasing] in H. destruct H as [H1 H2]. destruct Hp as [<-|Hp]; [exact H1|].
    specialize (IH _ _ _ H2 Hp). lia.
  Qed.
  Lemma increasing_weaken ps : forall lo lo' n, lo' <= lo -> increasing lo ps n -> increasing lo' ps n.
  Proof. destruct ps as [|p ps]; intros lo lo' n H; cbn; [auto|]. intros [H1 H2]. split; [lia|exact H2]. Qed.
  Lemma rap_perm {A} (s : list A) : forall i ps xs, increasing i ps (i + zlen s) ->
    Forall2 (fun x p => nth_error s (Z.to_nat (p - i)) = Some x) xs ps -> Permutation s (remove_at_positions i s ps ++ xs).
  Proof.
    induction s as [|a s IH]; intros i ps xs Hi H.
    - cbn. inversion H as [|x p xs' ps' Hx Hr]; subst; [constructor|]. now destruct (Z.to_nat (p - i)).
    - rewrite zlen_cons in Hi. cbn [remove_at_positions].
      destruct ps as [|p ps].
      + inversion H; subst. cbn [existsb]. cbn. constructor. apply (IH (i + 1) [] []); [exact I|constructor].
      + inversion H as [|x p' xs' ps' Hx Hr]; subst. cbn [increasing] in Hi. destruct Hi as [Hp Hi].
        destruct (Z.eqb_spec i p) as [<-|N]; cbn [existsb].
        * rewrite Z.eqb_refl. cbn [orb]. rewrite rap_smaller by lia. replace (Z.to_nat (i - i)) with O in Hx by lia. cbn in Hx. injection Hx as ->.
          rewrite <- Permutation_middle. constructor. apply IH; [replace (i + 1 + zlen s) with (i + (1 + zlen s)) by lia; exact Hi|].
          assert (Hlow : forall q, In q ps -> i + 1 <= q) by (intros q Hq; apply (increasing_lower _ _ _ _ Hi Hq)).
          clear -Hr Hlow. induction Hr as [|y q ys qs Hy Hr IHr]; constructor.
          -- assert (i + 1 <= q) by (apply Hlow; now left). replace (Z.to_nat (q - i)) with (S (Z.to_nat (q - (i + 1)))) in Hy by lia. exact Hy.
          -- apply IHr. intros; apply Hlow; now right.
        * destruct (Z.eqb_spec i p) as [|_]; [congruence|]. cbn [orb].
          assert (Eb : existsb (Z.eqb i) ps = false).
          { apply Bool.not_true_iff_false. intro Q. apply existsb_exists in Q as (q & Hq & Q). apply Z.eqb_eq in Q. subst q.
            pose proof (increasing_lower _ _ _ _ Hi Hq). lia. }
          rewrite Eb. cbn [app]. constructor. apply IH.
          -- cbn [increasing]. split; [lia|]. replace (i + 1 + zlen s) with (i + (1 + zlen s)) by lia. exact Hi.
          -- assert (Hlow : forall q, In q (p :: ps) -> i + 1 <= q).
             { intros q [<-|Hq]; [lia|]. pose proof (increasing_lower _ _ _ _ Hi Hq). lia. }
             clear -H Hlow. induction H as [|y q ys qs Hy Hr IHr]; constructor.
             ++ assert (i + 1 <= q) by (apply Hlow; now left). replace (Z.to_nat (q - i)) with (S (Z.to_nat (q - (i + 1)))) in Hy by lia. exact Hy.
             ++ apply IHr. intros; apply Hlow; now right.
  Qed.

  Lemma observes_delta n (s s' : list nat) : observes n s s' ->
    exists rest, Permutation s (rest ++ lost n) /\ Permutation s' (rest ++ gained n).
  Proof.
    intro H. destruct H; cbn [lost gained evt objs oldValue newValue].
    - exists s. rewrite app_nil_r. split; [reflexivity|]. symmetry. apply perm_insert.
    - exists s. rewrite app_nil_r. split; [reflexivity|]. unfold insert_all_at. rewrite Permutation_app_comm, <- app_assoc.
      rewrite Permutation_app_comm. apply Permutation_app_tail. rewrite Permutation_app_comm. now rewrite firstn_skipn.
    - exists (delete_at (Z.to_nat i) s). rewrite app_nil_r. split; [|reflexivity]. now apply perm_delete.
    - exists (remove_at_positions 0 s ps). rewrite app_nil_r. split; [|reflexivity]. apply rap_perm; [exact H|].
      clear -H1. induction H1; constructor; auto. now rewrite Z.sub_0_r.
    - exists []. split; reflexivity.
    - exists (delete_at (Z.to_nat i) s). split; [now apply perm_delete|].
      apply (Permutation_app_inv_r [x]). rewrite <- (perm_replace (Z.to_nat i) x y s H0).
      rewrite (perm_delete (Z.to_nat i) x s H0) at 1. rewrite <- !app_assoc. apply Permutation_app_head. apply (Permutation_app_comm [x] [y]).
    - exists s. rewrite !app_nil_r. split; [reflexivity|]. symmetry. now apply perm_move.
  Qed.

  Lemma nstep_one (data : list nat) o d ns r : nstep Nat.eqb 0%nat true data (L o) = Ret (d, ns) r -> ns = [] \/ exists n, ns = [n].
  Proof.
    intro H. destruct o; cbn [nstep] in H; cbv zeta in H; unfold nret, nlift in H;
    repeat match type of H with
    | (if ?b then _ else _) = _ => destruct b; try discriminate
    | (match ?X with Some _ => _ | None => _ end) = _ => destruct X as [p|] eqn:E; [|discriminate]
    end;
    try (destruct p as [[d1 b1] cb1]); try (injection H as _ <- _; eauto; fail).
    - destruct p as [d1 cb1]. injection H as _ <- _. eauto.
    - destruct p as [d1 ns1]. injection H as _ <- _. unfold ndoInsertAll in E.
      destruct (getNonDuplicates Nat.eqb data (elems data c)); [injection E as _ <-; auto|].
      destruct (doInsertAll data (zlen data) (n :: l)) as [[[d2 b2] cb2]|]; [|discriminate]. injection E as _ <-. eauto.
    - destruct p as [d1 cb1]. injection H as _ <- _. eauto.
    - destruct p as [d1 ns1]. injection H as _ <- _. unfold ndoInsertAll in E.
      destruct (getNonDuplicates Nat.eqb data (elems data c)); [injection E as _ <-; auto|].
      destruct (doInsertAll data i (n :: l)) as [[[d2 b2] cb2]|]; [|discriminate]. injection E as _ <-. eauto.
    - injection H as _ <- _. destruct (zlen b1 >? 0); eauto.
    - destruct (scanRemoved Nat.eqb 0 data (elems data c)) as [|[p0 x0] pr]; injection H as _ <- _; eauto.
    - injection H as _ <- _. destruct (Nat.eqb e b1); eauto.
  Qed.

  (** *** the lists of sub classes *)
  Notation count := (count_occ Nat.eq_dec).
  Lemma count_removeFirst x l y : count (removeFirst x l) y = if Nat.eqb x y then pred (count l y) else count l y.
  Proof.
    induction l as [|z l IH]; cbn; [now destruct (Nat.eqb x y)|].
    destruct (Nat.eqb_spec z x) as [->|Nz].
    - destruct (Nat.eq_dec x y) as [->|Ny]; [now rewrite Nat.eqb_refl|]. destruct (Nat.eqb_spec x y); congruence.
    - cbn. destruct (Nat.eq_dec z y) as [->|Ny].
      + rewrite IH. destruct (Nat.eqb_spec x y); [congruence|reflexivity].
      + exact IH.
  Qed.
  Lemma removes_count c l : forall s x y,
    count (subs (fold_left (removeSub c) l s) x) y = if Nat.eqb c y then (count (subs s x) y - count l x)%nat else count (subs s x) y.
  Proof.
    induction l as [|d l IH]; intros s x y; cbn [fold_left].
    - cbn. destruct (Nat.eqb c y); [lia|reflexivity].
    - rewrite IH. cbn [removeSub setSubs subs count_occ]. unfold upd. destruct (Nat.eqb_spec x d) as [->|N].
      + rewrite count_removeFirst. destruct (Nat.eqb c y); [|reflexivity]. destruct (Nat.eq_dec d d); [lia|congruence].
      + destruct (Nat.eq_dec d x); [congruence|]. reflexivity.
  Qed.
  Lemma adds_count c l : forall s x y,
    count (subs (fold_left (addSub c) l s) x) y = if Nat.eqb c y then (count (subs s x) y + count l x)%nat else count (subs s x) y.
  Proof.
    induction l as [|d l IH]; intros s x y; cbn [fold_left].
    - cbn. destruct (Nat.eqb c y); [lia|reflexivity].
    - rewrite IH. cbn [addSub setSubs subs count_occ]. unfold upd. destruct (Nat.eqb_spec x d) as [->|N].
      + rewrite count_occ_app. cbn. destruct (Nat.eq_dec c y) as [->|Nc].
        * rewrite Nat.eqb_refl. destruct (Nat.eq_dec d d); [lia|congruence].
        * destruct (Nat.eqb_spec c y); [congruence|]. lia.
      + destruct (Nat.eq_dec d x); [congruence|]. reflexivity.
  Qed.
  Definition only_subs (s s' : cstate) : Prop :=
    gr s' = gr s /\ cache s' = cache s /\ nameMap s' = nameMap s /\ overMap s' = overMap s /\ sid s' = sid s.
  Lemma removes_only c l : forall s, only_subs s (fold_left (removeSub c) l s).
  Proof. induction l as [|d l IH]; intro s; cbn [fold_left]; [repeat split|]. exact (IH (removeSub c s d)). Qed.
  Lemma adds_only c l : forall s, only_subs s (fold_left (addSub c) l s).
  Proof. induction l as [|d l IH]; intro s; cbn [fold_left]; [repeat split|]. exact (IH (addSub c s d)). Qed.

  Definition adapted (c : nat) (s : cstate) (n : notification nat) : cstate :=
    fold_left (addSub c) (gained n) (fold_left (removeSub c) (lost n) s).
  Lemma adapted_only c s n : only_subs s (adapted c s n).
  Proof.
    unfold adapted. destruct (removes_only c (lost n) s) as (A1 & A2 & A3 & A4 & A5).
    destruct (adds_only c (gained n) (fold_left (removeSub c) (lost n) s)) as (B1 & B2 & B3 & B4 & B5).
    repeat split; congruence.
  Qed.
  Lemma superAdapter_eq fuel c s n : superAdapter fuel MSuperTypes c s n = setModified fuel MSuperTypes (adapted c s n) c.
  Proof. unfold superAdapter, adapted, lost, gained. now destruct (evt n). Qed.

  Lemma mirrored_in s g : (forall c d, count (subs s d) c = count (supers g c) d) -> forall x y, In x (subs s y) <-> In y (supers g x).
  Proof. intros H x y. rewrite !(count_occ_In Nat.eq_dec), H. reflexivity. Qed.

  Lemma adapted_mirrored c s n d g :
    (forall x y, count (subs s y) x = count (supers g x) y) -> observes n (supers g c) d ->
    forall x y, count (subs (adapted c s n) y) x = count (upd (supers g) c d x) y.
  Proof.
    intros Hm Ho x y. unfold adapted. rewrite adds_count, removes_count.
    destruct (observes_delta n _ _ Ho) as (rest & P1 & P2).
    pose proof (proj1 (Permutation_count_occ Nat.eq_dec _ _) P1 y) as C1. pose proof (proj1 (Permutation_count_occ Nat.eq_dec _ _) P2 y) as C2.
    rewrite count_occ_app in C1, C2.
    destruct (Nat.eqb_spec c x) as [<-|N].
    - rewrite upd_same, Hm. lia.
    - rewrite upd_other by congruence. apply Hm.
  Qed.

  (** *** One modification *)
  Lemma edit_ok n m c o s ch :
    ch = match m with MSuperTypes => CSuper c o | MOperations => COper c o | _ => CFeat c o end ->
    m <> MAttributes ->
    inv n s -> fair_op n (gr s) ch ->
    exists s', edit n m c o s = Some s' /\ inv n s' /\ edited (gr s) ch = Some (gr s').
  Proof.
    intros Ech Hma (Hok & Hmir & V) [Hdel Hg].
    set (cur := match m with MSuperTypes => supers (gr s) | MOperations => opers (gr s) | _ => feats (gr s) end).
    assert (Hdc : deliver (gr s) c = true) by (destruct m; subst ch; exact Hdel || congruence).
    unfold edit. fold cur.
    destruct (nstep Nat.eqb 0%nat true (cur c) (L o)) as [[d ns] r|] eqn:E.
    2:{ exfalso. unfold cur in E. destruct m; subst ch; cbn in Hg; cbn in E; rewrite E in Hg; exact Hg || congruence. }
    set (g' := match m with
               | MSuperTypes => withSupers (gr s) (upd (supers (gr s)) c d)
               | MOperations => withOpers (gr s) (upd (opers (gr s)) c d)
               | _ => withFeats (gr s) (upd (feats (gr s)) c d)
               end).
    assert (Eed : edited (gr s) ch = Some g').
    { unfold cur in E. subst ch g'. destruct m; cbn in E |- *; try congruence; rewrite E; reflexivity. }
    rewrite Eed in Hg. rewrite Hdc.
    assert (Hobs : observes_all ns (cur c) d).
    { apply (nstep_observes Nat.eqb 0%nat Nat.eqb_spec true _ (L o) _ _ r); [|exact E]. destruct o; cbn; auto; destruct c0; auto. }
    (* classes other than [c] are not touched *)
    assert (Hother : forall k y, is_main k -> y <> c -> agree_at k (gr s) g' y).
    { intros k y Hk Hy. apply main_cases in Hk. unfold agree_at, g'.
      destruct m; cbn; rewrite ?upd_other by exact Hy; (split; [reflexivity|]); decompose [or] Hk; subst k; auto. }
    (* nor are views that do not depend on the list *)
    assert (Hview : forall k y, is_main k -> ~ In k (clears m) -> agree_at k (gr s) g' y).
    { intros k y Hk Hn. apply main_cases in Hk. unfold agree_at, g'. decompose [or] Hk; subst k; destruct m; cbn in Hn |- *; try (exfalso; tauto); auto. }
    assert (Mbase : forall k, is_main k \/ k = KCont -> is_main (base k)).
    { intros k [Hk| ->]; [|unfold is_main; cbn; auto]. replace (base k) with k; [exact Hk|]. apply main_cases in Hk. decompose [or] Hk; subst; reflexivity. }
    destruct (nstep_one _ _ _ _ _ E) as [->|(nt & ->)].
    - (* nothing happened *)
      cbn [fold_left]. assert (Ed : d = cur c) by (inversion Hobs; auto).
      assert (Hag : forall k y, is_main k -> agree_at k (gr s) g' y).
      { intros k y Hk. destruct (Nat.eq_dec y c) as [->|N]; [|now apply Hother]. subst d. apply main_cases in Hk. unfold agree_at, g', cur.
        destruct m; cbn; rewrite ?upd_same; (split; [reflexivity|]); decompose [or] Hk; subst k; auto. }
      exists (setGraph s g'). split; [reflexivity|]. split; [|exact Eed]. split; [exact Hg|]. split.
      + intros x y. cbn [subs gr setGraph]. rewrite Hmir. f_equal. apply (Hag KSup). unfold is_main; cbn; auto.
      + apply (transfer s); auto.
        * intros k x e Hk H He. cbn [gr setGraph] in He. rewrite <- (proj1 (Hag KSup x (or_introl eq_refl))) in He. exact (v_closed overrides s V k x e Hk H He).
    - cbn [fold_left obind]. inversion Hobs as [|nt0 ns0 a b e H1 H2]; subst. inversion H2; subst. clear Hobs H2.
      destruct Hg as ((rank & Hb & Hr) & Of & Oo).
      set (s2 := match m with MSuperTypes => adapted c (setGraph s g') nt | _ => setGraph s g' end).
      assert (E2 : superAdapter n m c (setGraph s g') nt = setModified n m s2 c).
      { unfold s2. destruct m; try reflexivity. apply superAdapter_eq. }
      rewrite E2.
      assert (Hos : gr s2 = g' /\ cache s2 = cache s /\ nameMap s2 = nameMap s /\ overMap s2 = overMap s /\ sid s2 = sid s).
      { unfold s2. destruct m; try (now repeat split). exact (adapted_only c (setGraph s g') nt). }
      destruct Hos as (O1 & O2 & O3 & O4 & O5).
      assert (Hmir2 : forall x y, count (subs s2 y) x = count (supers g' x) y).
      { unfold s2, g'. destruct m; try exact Hmir. exact (adapted_mirrored c (setGraph s g') nt d (gr s) Hmir H1). }
      destruct (setModified_ok m g' rank n Hb Hr n s2 c (mirrored_in s2 g' Hmir2)) as (s' & E' & [C1 C2 C3 C4 C5 C6 C7]); [lia|].
      exists s'. rewrite C1, O1. split; [exact E'|]. split; [|exact Eed]. split; [rewrite C1, O1; split; [exists rank; auto|auto]|]. split.
      + unfold mirrored. rewrite C1, C2, O1. exact Hmir2.
      + assert (Hkept : forall k x, cache s' k x = cache s k x \/ (cache s' k x = None /\ In k (clears m) /\ ancestor g' c x)).
        { intros k x. specialize (C6 k x). rewrite O2 in C6. exact C6. }
        assert (Hcl : forall k, In k (clears m) -> is_main k \/ k = KCont).
        { intros k Hk. unfold is_main. destruct m; cbn in Hk |- *; decompose [or] Hk; subst; auto 10; tauto. }
        assert (Hsc : forall k x, cache s' k x <> None -> In k (clears m) -> forall y, ancestor g' y x -> y <> c).
        { intros k x Hx Hk y Hy ->. apply Hx. now apply C7. }
        assert (Hcont : ~ In KCont (clears m) -> False) by (destruct m; cbn; intuition).
        apply (transfer s); auto; try congruence.
        * intros k x. destruct (Hkept k x) as [Q|(Q & Hk & _)]; [now left|]. right. split; [exact Q|]. now apply Hcl.
        * intros k x e Hk Hx He. rewrite C1, O1 in He.
          assert (Hx' : cache s k x <> None) by (destruct (Hkept k x) as [Q|(Q & _)]; congruence).
          assert (He' : In e (supers (gr s) x)).
          { destruct (in_dec Nat.eq_dec x [c]) as [[<-|[]]|N].
            - (* x = c: then k is not cleared, so the super types did not change *)
              assert (Nk : ~ In k (clears m)) by (intro Q; apply (Hsc k c Hx Q c); [constructor|reflexivity]).
              rewrite (proj1 (Hview k c Hk Nk)). exact He.
            - rewrite (proj1 (Hother KSup x (or_introl eq_refl) (fun Q => N (or_introl (eq_sym Q))))). exact He. }
          pose proof (v_closed overrides s V k x e Hk Hx' He') as Hce.
          destruct (Hkept k e) as [Q|(Q & Hkc & Ha)]; [congruence|]. exfalso.
          apply (Hsc k x Hx Hkc c); [|reflexivity]. econstructor; eauto.
        * intros k x Hk Hx y Hy. rewrite C1, O1 in Hy |- *. destruct (in_dec kind_eq_dec k (clears m)) as [Hc|Hc].
          -- apply Hother; [now apply Mbase|]. exact (Hsc k x Hx Hc y Hy).
          -- apply Hview; [now apply Mbase|]. destruct Hk as [Hk| ->]; [|now destruct (Hcont Hc)].
             replace (base k) with k; [exact Hc|]. apply main_cases in Hk. decompose [or] Hk; subst; reflexivity.
  Qed.

  (** a change of the features' attributes *)
  Lemma info_ok n s g' (m : option nat) :
    inv n s -> ok_graph n g' -> supers g' = supers (gr s) -> feats g' = feats (gr s) -> opers g' = opers (gr s) ->
    (forall k y, is_main k -> match m with Some c => y <> c | None => True end -> agree_at k (gr s) g' y) ->
    (forall k y, is_main k -> ~ In k (clears MAttributes) -> agree_at k (gr s) g' y) ->
    exists s', match m with Some c => setModified n MAttributes (setGraph s g') c | None => Some (setGraph s g') end = Some s' /\
               inv n s' /\ gr s' = g'.
  Proof.
    intros (Hok & Hmir & V) Hg Eq1 Eq2 Eq3 Hother Hview.
    assert (Mbase : forall k, is_main k \/ k = KCont -> is_main (base k)).
    { intros k [Hk| ->]; [|unfold is_main; cbn; auto]. replace (base k) with k; [exact Hk|]. apply main_cases in Hk. decompose [or] Hk; subst; reflexivity. }
    destruct m as [c|].
    - pose proof Hg as ((rank & Hb & Hr) & Of & Oo).
      assert (Hmir2 : forall x y, count (subs (setGraph s g') y) x = count (supers g' x) y) by (rewrite Eq1; exact Hmir).
      destruct (setModified_ok MAttributes g' rank n Hb Hr n (setGraph s g') c (mirrored_in _ g' Hmir2)) as (s' & E' & [C1 C2 C3 C4 C5 C6 C7]); [lia|].
      exists s'. split; [exact E'|]. split; [|exact C1]. cbn [gr setGraph] in C1. split; [rewrite C1; exact Hg|]. split.
      + unfold mirrored. rewrite C1, C2. exact Hmir2.
      + cbn [cache setGraph] in C6.
        assert (Hsc : forall k x, cache s' k x <> None -> In k (clears MAttributes) -> forall y, ancestor g' y x -> y <> c).
        { intros k x Hx Hk y Hy ->. apply Hx. now apply C7. }
        apply (transfer s); auto; try congruence.
        * intros k x. destruct (C6 k x) as [Q|(Q & Hk & _)]; [now left|]. right. split; [exact Q|].
          unfold is_main. cbn in Hk |- *. decompose [or] Hk; subst; auto 10; tauto.
        * intros k x e Hk Hx He. rewrite C1, Eq1 in He.
          assert (Hx' : cache s k x <> None) by (destruct (C6 k x) as [Q|(Q & _)]; congruence).
          pose proof (v_closed overrides s V k x e Hk Hx' He) as Hce.
          destruct (C6 k e) as [Q|(Q & Hkc & Ha)]; [congruence|]. exfalso.
          apply (Hsc k x Hx Hkc c); [|reflexivity]. econstructor; [|exact Ha]. now rewrite Eq1.
        * intros k x Hk Hx y Hy. rewrite C1 in Hy |- *. destruct (in_dec kind_eq_dec k (clears MAttributes)) as [Hc|Hc].
          -- apply Hother; [now apply Mbase|]. exact (Hsc k x Hx Hc y Hy).
          -- apply Hview; [now apply Mbase|]. destruct Hk as [Hk| ->]; [|exfalso; apply Hc; cbn; auto].
             replace (base k) with k; [exact Hc|]. apply main_cases in Hk. decompose [or] Hk; subst; reflexivity.
    - exists (setGraph s g'). split; [reflexivity|]. split; [|reflexivity]. split; [exact Hg|]. split.
      + intros x y. cbn [subs gr setGraph]. rewrite Eq1. apply Hmir.
      + apply (transfer s); auto.
        * intros k x e Hk H He. cbn [gr setGraph] in He. rewrite Eq1 in He. exact (v_closed overrides s V k x e Hk H He).
  Qed.

  Lemma upd_info_agree g f i y k : is_main k -> ~ In f (feats g y) ->
    agree_at k g (withInfo g (fun x => if Nat.eqb x f then i else info g x)) y.
  Proof.
    intros Hk Hf. unfold agree_at. split; [reflexivity|].
    assert (H : forall x, In x (feats g y) -> info g x = if Nat.eqb x f then i else info g x).
    { intros x Hx. destruct (Nat.eqb_spec x f) as [->|]; [tauto|reflexivity]. }
    apply main_cases in Hk. decompose [or] Hk; subst k; cbn; auto; (split; [reflexivity|]); intros x Hx; now rewrite <- (H x Hx).
  Qed.

  Theorem step_ok n s o :
    inv n s -> fair_op n (gr s) o ->
    exists s' r, cstep overrides n s o = Some (s', r) /\ inv n s' /\ edited (gr s) o = Some (gr s') /\
                 (forall q, o = CAsk q -> (forall c, q <> QCross c) -> exists a, r = Some a /\ scratch overrides (gr s) q a).
  Proof.
    intros Hi Hf. destruct o as [c o|c o|c o|f b oc|f i|c b|q]; cbn [cstep].
    - destruct (edit_ok n MSuperTypes c o s (CSuper c o) eq_refl) as (s' & E & I' & Ed); auto; [discriminate|].
      rewrite E. cbn [obind]. eexists _, _. split; [reflexivity|]. split; [exact I'|]. split; [exact Ed|]. discriminate.
    - destruct (edit_ok n MFeatures c o s (CFeat c o) eq_refl) as (s' & E & I' & Ed); auto; [discriminate|].
      rewrite E. cbn [obind]. eexists _, _. split; [reflexivity|]. split; [exact I'|]. split; [exact Ed|]. discriminate.
    - destruct (edit_ok n MOperations c o s (COper c o) eq_refl) as (s' & E & I' & Ed); auto; [discriminate|].
      rewrite E. cbn [obind]. eexists _, _. split; [reflexivity|]. split; [exact I'|]. split; [exact Ed|]. discriminate.
    - destruct Hf as [Hf Hg]. cbn [edited] in Hg |- *.
      set (g' := withInfo (gr s) (fun x => if Nat.eqb x f then withID (info (gr s) f) b else info (gr s) x)) in *.
      assert (Hv : forall k y, is_main k -> k <> KAttr -> agree_at k (gr s) g' y).
      { intros k y Hk Nk. unfold agree_at. split; [reflexivity|].
        assert (H : forall x, noid (info (gr s) x) = noid (info g' x)).
        { intros x. unfold g'. cbn. destruct (Nat.eqb_spec x f) as [->|]; reflexivity. }
        apply main_cases in Hk. decompose [or] Hk; subst k; auto; congruence. }
      destruct (info_ok n s g' oc Hi Hg eq_refl eq_refl eq_refl) as (s' & E & I' & Eg).
      + intros k y Hk Hy. unfold g'. destruct oc as [c|].
        * apply upd_info_agree; [exact Hk|]. intro Q. apply Hy. destruct Hi as ((_ & (_ & Hd) & _) & _). exact (Hd y c f Q Hf).
        * apply upd_info_agree; [exact Hk|]. apply Hf.
      + intros k y Hk Hn. apply Hv; [exact Hk|]. intros ->. apply Hn. cbn. auto.
      + destruct oc as [c|].
        * rewrite E. cbn [obind]. eexists _, _. split; [reflexivity|]. split; [exact I'|]. split; [now rewrite Eg|]. discriminate.
        * injection E as <-. eexists _, _. split; [reflexivity|]. split; [exact I'|]. split; [reflexivity|]. discriminate.
    - destruct Hf as [Hf Hg]. cbn [edited] in Hg |- *.
      destruct (info_ok n s _ None Hi Hg eq_refl eq_refl eq_refl) as (s' & E & I' & Eg).
      + intros k y Hk _. now apply upd_info_agree.
      + intros k y Hk _. now apply upd_info_agree.
      + injection E as <-. eexists _, _. split; [reflexivity|]. split; [exact I'|]. split; [reflexivity|]. discriminate.
    - destruct Hf as [_ Hg]. cbn [edited] in Hg |- *.
      assert (Ag : forall k y, is_main k -> agree_at k (gr s) (withDeliver (gr s) (upd (deliver (gr s)) c b)) y).
      { intros k y Hk. unfold agree_at. split; [reflexivity|]. apply main_cases in Hk. decompose [or] Hk; subst k; cbn; auto. }
      destruct (info_ok n s _ None Hi Hg eq_refl eq_refl eq_refl) as (s' & E & I' & Eg); auto.
      injection E as <-. eexists _, _. split; [reflexivity|]. split; [exact I'|]. split; [reflexivity|]. discriminate.
    - destruct Hf as [Hq _]. destruct (ask_ok overrides n s q Hi) as (s' & a & E & I' & Eg & Sc).
      { destruct q; auto. }
      rewrite E. cbn [obind]. eexists _, _. split; [reflexivity|]. split; [exact I'|]. split; [cbn; now rewrite Eg|].
      intros q' Q N. injection Q as <-. eauto.
  Qed.

  Theorem run_ok n h : forall s, inv n s -> fair n (gr s) h ->
    exists s', crun overrides n s h = Some s' /\ inv n s' /\ edits (gr s) h = Some (gr s').
  Proof.
    induction h as [|o h IH]; intros s Hi Hf; cbn [crun edits fair] in *.
    - exists s. auto.
    - destruct Hf as [Ho Hf]. destruct (step_ok n s o Hi Ho) as (s1 & r & E & I1 & Ed & _). rewrite E, Ed. cbn [obind].
      rewrite Ed in Hf. exact (IH s1 I1 Hf).
  Qed.

  Lemma fair_app n h : forall g h', fair n g (h ++ h') -> fair n g h /\ match edits g h with Some g' => fair n g' h' | None => False end.
  Proof.
    induction h as [|o h IH]; intros g h' H; cbn in *; [auto|]. destruct H as [H1 H2].
    destruct (edited g o) as [g'|] eqn:E; [|tauto]. cbn. destruct (IH g' h' H2) as [H3 H4]. auto.
  Qed.

  Lemma inv_fresh n i : (0 < n)%nat -> inv n (freshClasses i).
  Proof.
    intros Hn. split; [|split].
    - split; [exists (fun _ => O); split; [auto|intros c d []]|]. split; (split; [intro; constructor|intros c d x []]).
    - intros c d. reflexivity.
    - constructor; cbn; try discriminate; try congruence.
  Qed.

  (** every query of a fair history is answered, and answered as computed from scratch *)
  Theorem views_fresh n i h q :
    (0 < n)%nat -> fair n (gr (freshClasses i)) (h ++ [CAsk q]) -> (forall c, q <> QCross c) ->
    exists s s' a, crun overrides n (freshClasses i) h = Some s /\ edits (gr (freshClasses i)) h = Some (gr s) /\
                   ask overrides n s q = Some (s', a) /\ scratch overrides (gr s) q a.
  Proof.
    intros Hn Hf Hq. destruct (fair_app n h _ _ Hf) as [H1 H2].
    destruct (run_ok n h (freshClasses i) (inv_fresh n i Hn) H1) as (s & E & I' & Ed).
    rewrite Ed in H2. cbn in H2. destruct H2 as [H2 _].
    destruct (ask_ok overrides n s q I') as (s' & a & Ea & _ & _ & Sc).
    { destruct H2 as [H2 _]. destruct q; auto. }
    exists s, s', a. split; [exact E|]. split; [exact Ed|]. split; [exact Ea|]. now apply Sc.
  Qed.

  (** members of an inherited list *)
  Lemma members_complete_both k g :
    (forall c l, inh k g c l -> forall y x, ancestor g y c -> In x (own k g y) -> In x l) /\
    (forall ds l, inhs k g ds l -> forall d y x, In d ds -> ancestor g y d -> In x (own k g y) -> In x l).
  Proof.
    apply inherit_ind.
    - intros c l _ IH y x Ha Hx. apply in_app_iff. inversion Ha as [|? z Hz Ha']; subst; [now right|]. left. eauto.
    - intros d y x [].
    - intros d ds l ls _ IH1 _ IH2 e y x [<-|He] Ha Hx; rewrite !in_app_iff; eauto.
  Qed.

  Definition part (k : kind) (g : graph) : nat -> list nat := match k with KOps => opers g | _ => feats g end.

  Theorem ids_ok n i h k c x :
    (k = KFeat \/ k = KOps) -> (0 < n)%nat -> fair n (gr (freshClasses i)) h ->
    exists s s1 z s2 r, crun overrides n (freshClasses i) h = Some s /\
      ask overrides n s (match k with KOps => QOperationID c x | _ => QFeatureID c x end) = Some (s1, AInt z) /\
      ask overrides n s1 (match k with KOps => QOperation c z | _ => QFeature c z end) = Some (s2, AOpt r) /\
      ((exists d, ancestor (gr s) d c /\ In x (part k (gr s) d)) -> r = Some x) /\
      (~ (exists d, ancestor (gr s) d c /\ In x (part k (gr s) d)) -> z = -1 /\ r = None).
  Proof.
    intros Hk Hn Hf. destruct (run_ok n h (freshClasses i) (inv_fresh n i Hn) Hf) as (s & E & I' & _).
    set (q1 := match k with KOps => QOperationID c x | _ => QFeatureID c x end).
    destruct (ask_ok overrides n s q1 I') as (s1 & a & Ea & I1 & Eg & Sc).
    { subst q1. destruct Hk; subst k; exact I. }
    assert (Sc1 : scratch overrides (gr s) q1 a) by (apply Sc; subst q1; destruct Hk; subst k; discriminate). clear Sc.
    assert (H : exists l z, inh k (gr s) c l /\ a = AInt z /\ position_of x l z).
    { subst q1. destruct Hk; subst k; destruct Sc1 as (l & z & H1 & H2 & H3); exists l, z; auto. }
    destruct H as (l & z & Hl & -> & Hp).
    set (q2 := match k with KOps => QOperation c z | _ => QFeature c z end).
    destruct (ask_ok overrides n s1 q2 I1) as (s2 & a2 & Ea2 & _ & _ & Sc2).
    { subst q2. destruct Hk; subst k; exact I. }
    assert (Sc3 : scratch overrides (gr s1) q2 a2) by (apply Sc2; subst q2; destruct Hk; subst k; discriminate). clear Sc2.
    assert (H : exists l, inh k (gr s) c l /\ a2 = AOpt (zget l z)).
    { subst q2. rewrite Eg in Sc3. destruct Hk; subst k; destruct Sc3 as (l2 & H1 & H2); exists l2; auto. }
    destruct H as (l2 & Hl2 & ->).
    assert (l2 = l) by (unfold inh in *; eapply inherited_fun; eauto). subst l2.
    exists s, s1, z, s2, (zget l z). split; [exact E|]. split; [exact Ea|]. split; [exact Ea2|].
    assert (Eo : forall d, own k (gr s) d = part k (gr s) d) by (intros d; destruct Hk; subst k; reflexivity).
    split.
    - intros (d & Hd & Hx). apply (proj1 Hp). apply (proj1 (members_complete_both k (gr s)) c l Hl d x Hd). now rewrite Eo.
    - intros Hno. assert (N : ~ In x l).
      { intro Hx. apply Hno. destruct (proj1 (inh_members_both k (gr s)) c l Hl) with (x := x) as (y & Hy & Ho); auto.
        - destruct Hk; subst k; discriminate.
        - exists y. rewrite <- Eo. auto. }
      rewrite (proj2 Hp N). split; reflexivity.
  Qed.
End History.
