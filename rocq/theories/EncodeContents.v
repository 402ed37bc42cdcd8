(** Which objects get rows. *)
From Verif Require Import Base EncodeModel EncodeSpec EncodeProofs.

Section Contents.
  Context (kids : nat -> list nat) (init : nat -> bool) (work : list (list nat)).

  Definition new (o : nat) : Prop := exists r, requested work r /\ new_from kids init r o.
  Definition wanted (o : nat) : Prop := requested work o \/ exists p, new p /\ In o (kids p).
  Lemma wanted_new o : wanted o -> init o = false -> new o.
  Proof.
    intros [R|(p & (r & R & Nf) & K)] F; [exists o; split; [exact R|now constructor]|]. exists r. split; [exact R|]. econstructor; eassumption.
  Qed.
  Definition fine (t : thread) : Prop :=
    (forall o, In o (jobs t) -> requested work o)
    /\ forall f, In f (stack t) -> wanted (fobj f) /\ forall o ks, f = Kids o ks -> incl ks (kids o).
  Lemma fine_leave o b st js os : fine (T st js os) -> fine (leave o b st js os).
  Proof.
    intros [Hj Hf]. cbn in *. destruct st as [|f st]; [split; cbn; [exact Hj|intros f []]|]. split; [exact Hj|]. cbn.
    intros f' [<-|H]; [|apply Hf; now right]. destruct b; [apply Hf; now left|]. rewrite fobj_failed. split; [apply (Hf f); now left|].
    intros p ks E. destruct f; discriminate.
  Qed.
  Lemma fine_tl f st js os : fine (T (f :: st) js os) -> fine (T st js os).
  Proof. intros [Hj Hf]. split; [exact Hj|]. intros f' H. apply Hf. now right. Qed.
  Lemma fine_top f f' st js os : fine (T (f :: st) js os) -> fobj f' = fobj f -> (forall o ks, f' = Kids o ks -> incl ks (kids o)) ->
    fine (T (f' :: st) js os).
  Proof. intros [Hj Hf] E K. split; [exact Hj|]. intros x [<-|H]; [split; [rewrite E; apply Hf; now left|exact K]|apply Hf; now right]. Qed.
  Lemma fine_step g sh t sh' t' : tstep kids g sh t sh' t' -> TI g sh (stack t) -> (forall o, In o (rows sh) -> new o) -> fine t -> fine t'.
  Proof.
    intros St TI0 Rn F. destruct St.
    - destruct F as [Hj _]. split; cbn in *; [intros x H; apply Hj; now right|]. intros f [<-|[]]. split; [left; apply Hj; now left|discriminate].
    - apply fine_leave. eapply fine_tl, F.
    - eapply fine_top; [exact F|reflexivity|discriminate].
    - eapply fine_top; [exact F|reflexivity|discriminate].
    - apply fine_leave. eapply fine_tl, F.
    - eapply fine_top; [exact F|reflexivity|discriminate].
    - eapply fine_top; [exact F|reflexivity|]. intros p ks [= <- <-]. apply incl_refl.
    - eapply fine_top; [exact F|reflexivity|discriminate].
    - pose proof F as [Hj Hf]. destruct (Hf _ (or_introl eq_refl)) as [Ho Hk]. specialize (Hk _ _ eq_refl). split; [exact Hj|].
      intros f [<-|H].
      + split; [|discriminate]. right. exists o. split; [|apply Hk; now left]. apply Rn. eapply (ti_rows _ _ _ TI0). now left.
      + destruct H as [<-|H]; [|apply Hf; now right]. split; [exact Ho|]. intros p ks' [= <- <-] x Hx. apply Hk. now right.
    - eapply fine_top; [exact F|reflexivity|discriminate].
    - apply fine_leave. eapply fine_tl, F.
    - apply fine_leave. eapply fine_tl, F.
  Qed.

  (** an error is on its way or was returned *)
  Definition terr (t : thread) : Prop := (exists o, In (Fail o) (stack t)) \/ exists o, In (o, false) (outs t).
  Definition err (s : state) : Prop := exists t, In t (snd s) /\ terr t.
  (** the contents of the objects being encoded have ids, are being encoded or still to be encoded *)
  Fixpoint okst (i : nat -> bool) (above : option nat) (st : list frame) : Prop :=
    match st with
    | [] => True
    | Kids o ks :: r => (forall k, In k (kids o) -> In k ks \/ i k = true \/ above = Some k) /\ okst i (Some o) r
    | f :: r => okst i (Some (fobj f)) r
    end.
  Definition bottom (st : list frame) : option nat := match rev st with [] => None | f :: _ => Some (fobj f) end.
  Record CI (s : state) : Prop := {
    ci_new : forall o, In o (rows (fst s)) -> new o;
    ci_fine : forall t, In t (snd s) -> fine t;
    ci_ok : forall t, In t (snd s) -> okst (ids (fst s)) None (stack t);
    ci_outs : forall t r, In t (snd s) -> In (r, true) (outs t) -> ids (fst s) r = true;
    ci_full : forall o, In o (full (fst s)) -> In o (rows (fst s)) /\ forall k, In k (kids o) -> ids (fst s) k = true;
    ci_rows : forall o, In o (rows (fst s)) -> In o (full (fst s)) \/ err s \/ exists t ks, In t (snd s) /\ In (Kids o ks) (stack t);
    ci_roots : forall g js, nth_error work g = Some js -> exists t, nth_error (snd s) g = Some t
      /\ forall r, In r js -> In r (jobs t) \/ ids (fst s) r = true \/ bottom (stack t) = Some r \/ terr t }.

  Lemma okst_mono i j a st : (forall o, i o = true -> j o = true) -> okst i a st -> okst j a st.
  Proof.
    intro M. revert a. induction st as [|f st IH]; intros a; cbn; [tauto|]. destruct f; try apply IH.
    intros [H Hs]. split; [|now apply IH]. intros k Hk. destruct (H k Hk) as [A|[A|A]]; auto.
  Qed.
  Lemma okst_leave i o b st js os : (b = true -> i o = true) -> okst i (Some o) st -> okst i None (stack (leave o b st js os)).
  Proof.
    intros Ho. rewrite leave_stack. destruct st as [|f st]; [tauto|]. destruct b.
    - destruct f; cbn; try tauto. intros [H Hs]. split; [|exact Hs]. intros k Hk. destruct (H k Hk) as [A|[A|[= <-]]]; auto.
    - destruct f; cbn; try tauto.
  Qed.
  Lemma bottom_app st f : bottom (st ++ [f]) = Some (fobj f).
  Proof. unfold bottom. now rewrite rev_app_distr. Qed.
  Lemma bottom_cons f g st : bottom (f :: g :: st) = bottom (g :: st).
  Proof.
    destruct (@exists_last _ (g :: st)) as (l & x & E); [discriminate|]. rewrite E. change (f :: l ++ [x]) with ((f :: l) ++ [x]). now rewrite !bottom_app.
  Qed.
  Lemma bottom_top f f' st : fobj f = fobj f' -> bottom (f :: st) = bottom (f' :: st).
  Proof. intro E. destruct st as [|g st]; [unfold bottom; cbn; congruence|]. now rewrite !bottom_cons. Qed.
  Lemma bottom_leave o b f st js os r : fobj f = o -> bottom (f :: st) = Some r ->
    bottom (stack (leave o b st js os)) = Some r \/ (st = [] /\ r = o).
  Proof.
    intros E. rewrite leave_stack. destruct st as [|h st]; [unfold bottom; cbn; intros [= <-]; auto|]. rewrite bottom_cons. intro H. left.
    rewrite <- H. apply bottom_top. destruct b; [reflexivity|apply fobj_failed].
  Qed.
  Lemma leave_jobs o b st js os : jobs (leave o b st js os) = js. Proof. now destruct st. Qed.
  Lemma leave_outs o b st js os x : In x (outs (leave o b st js os)) <-> In x os \/ (st = [] /\ x = (o, b)).
  Proof. destruct st; cbn; [rewrite in_app_iff; cbn; intuition auto|]. intuition discriminate. Qed.

  (** what a step does within its goroutine *)
  Record TS (sh : shared) (t : thread) (sh' : shared) (t' : thread) : Prop := {
    s_mono : forall o, ids sh o = true -> ids sh' o = true;
    s_ok : okst (ids sh) None (stack t) -> okst (ids sh') None (stack t');
    s_outs : forall r, In (r, true) (outs t') -> In (r, true) (outs t) \/ ids sh' r = true;
    s_err : terr t -> terr t';
    s_full : forall o, In o (full sh') -> In o (full sh) \/ exists r, stack t = Kids o [] :: r;
    s_fullmono : incl (full sh) (full sh');
    s_kids : forall o ks, In (Kids o ks) (stack t) -> In o (full sh') \/ terr t' \/ exists ks', In (Kids o ks') (stack t');
    s_rows : forall o, In o (rows sh') -> In o (rows sh) \/ exists ks, In (Kids o ks) (stack t');
    s_root : forall r, In r (jobs t) \/ bottom (stack t) = Some r -> In r (jobs t') \/ ids sh' r = true \/ bottom (stack t') = Some r \/ terr t' }.

  Lemma kids_no_fail st : Forall isKids st -> forall o, ~ In (Fail o) st.
  Proof. intros F o H. exact (proj1 (Forall_forall _ _) F _ H). Qed.
  Lemma kids_leave o b st js os p ks : In (Kids p ks) st -> terr (leave o b st js os) \/ exists ks', In (Kids p ks') (stack (leave o b st js os)).
  Proof.
    intro H. rewrite leave_stack. destruct st as [|f st]; [contradiction|]. destruct H as [->|H]; [|right; exists ks; now right].
    destruct b; [right; exists ks; now left|]. left. left. exists p. now left.
  Qed.

  (** a successful return *)
  Lemma TS_return sh sh' f o st js os : fobj f = o -> Forall isKids st -> ids sh o = true ->
    (forall x, ids sh' x = ids sh x) -> rows sh' = rows sh -> incl (full sh) (full sh') ->
    (forall x, In x (full sh') -> In x (full sh) \/ exists r, f :: st = Kids x [] :: r) ->
    (forall x ks, f = Kids x ks -> In x (full sh')) -> (forall x, f <> Fail x) ->
    (okst (ids sh) None (f :: st) -> okst (ids sh) (Some o) st) ->
    TS sh (T (f :: st) js os) sh' (leave o true st js os).
  Proof.
    intros Ef Sh_ Io Ii Rr Fm Fu Fk Ff Ok. constructor; cbn [stack jobs outs].
    - intros x. now rewrite Ii.
    - intro H. apply (okst_mono (ids sh)); [intros x; now rewrite Ii|]. apply okst_leave; [auto|now apply Ok].
    - intros r H. apply leave_outs in H as [H|[_ [= ->]]]; [auto|]. right. now rewrite Ii.
    - intros [(x & [E|H])|(x & H)]; cbn in *; [now apply Ff in E|now apply kids_no_fail in H|]. right. exists x. apply leave_outs. auto.
    - exact Fu.
    - exact Fm.
    - intros x ks [E|H]; [left; eapply Fk, E|]. right. eapply kids_leave, H.
    - intros x. rewrite Rr. auto.
    - intros r [H|H]; [left; now rewrite leave_jobs|]. destruct (bottom_leave o true f st js os r Ef H) as [B|[_ ->]]; [auto|].
      right. left. now rewrite Ii.
  Qed.
  (** the innermost call goes on *)
  Lemma TS_go sh sh' f f' st js os : fobj f = fobj f' -> Forall isKids st -> (forall x, f <> Fail x) ->
    (forall o, ids sh o = true -> ids sh' o = true) -> full sh' = full sh ->
    (okst (ids sh) None (f :: st) -> okst (ids sh') None (f' :: st)) ->
    (forall o ks, f = Kids o ks -> f' = Fail o) ->
    (forall o, In o (rows sh') -> In o (rows sh) \/ exists ks, f' = Kids o ks) ->
    TS sh (T (f :: st) js os) sh' (T (f' :: st) js os).
  Proof.
    intros Ef Sh_ Ff M Fu Ok Fk Ro. constructor; cbn [stack jobs outs]; auto.
    - intros [(x & [E|H])|H]; cbn in *; [now apply Ff in E|now apply kids_no_fail in H|right; exact H].
    - intros x. rewrite Fu. auto.
    - intros x. rewrite Fu. auto.
    - intros x ks [E|H]; right; [left; left; exists x; cbn; left; eapply Fk, E|right; exists ks; now right].
    - intros x H. destruct (Ro x H) as [A|[ks E]]; [auto|]. right. exists ks. now left.
    - intros r [H|H]; [auto|]. right. right. left. rewrite <- H. symmetry. now apply bottom_top.
  Qed.

  Lemma TS_step g sh t sh' t' : tstep kids g sh t sh' t' -> TI g sh (stack t) ->
    (forall o, In o (rows sh) -> ids sh o = true) -> TS sh t sh' t'.
  Proof.
    intros St TI0 Ri. pose proof (ti_shape _ _ _ TI0) as Sh_. destruct St; cbn [stack tl] in *.
    - constructor; cbn [stack jobs outs]; auto.
      + intros [(x & [])|H]. now right.
      + apply incl_refl.
      + intros o ks [].
      + intros x [[->|H]|H]; [right; right; left; reflexivity|auto|discriminate].
    - apply TS_return; auto; try discriminate. apply incl_refl.
    - apply TS_go; auto; discriminate.
    - apply TS_go; auto; discriminate.
    - apply TS_return; auto; try discriminate. apply incl_refl.
    - apply TS_go; auto; discriminate.
    - apply TS_go; auto; try discriminate; cbn [ids rows].
      + intros x H. destruct (Nat.eq_dec x o) as [->|Ne]; [apply set_eq|now rewrite set_ne].
      + intro H. cbn in *. split; [auto|]. eapply okst_mono; [|exact H]. intros x Hx. destruct (Nat.eq_dec x o) as [->|Ne]; [apply set_eq|now rewrite set_ne].
      + intros x H. apply in_app_or in H as [H|[<-|[]]]; eauto.
    - apply TS_go; auto; discriminate.
    - constructor; cbn [stack jobs outs]; auto.
      + intros H. cbn in *. destruct H as [H Hs]. split; [|exact Hs]. intros x Hx. destruct (H x Hx) as [[->|A]|[A|A]]; auto. discriminate.
      + intros [(x & [E|H])|H]; [discriminate|now apply kids_no_fail in H|right; exact H].
      + apply incl_refl.
      + intros x ks' [[= <- <-]|H]; right; right; [exists ks; cbn; auto|exists ks'; cbn; auto].
      + intros x [H|H]; [auto|]. right. right. left. rewrite bottom_cons, <- H. now apply bottom_top.
    - apply TS_go; auto; try discriminate.
      + cbn. tauto.
      + now intros x ks' [= <- <-].
    - apply TS_return; auto; try discriminate; cbn [full unlock].
      + apply Ri. eapply (ti_rows _ _ _ TI0). now left.
      + intros x Hx. apply in_or_app. auto.
      + intros x Hx. apply in_app_or in Hx as [Hx|[<-|[]]]; eauto.
      + intros x ks [= <- _]. apply in_or_app. right. now left.
      + cbn. tauto.
    - assert (Te : terr (leave o false st js os)).
      { destruct st as [|f st]; [right; exists o; cbn; apply in_or_app; right; now left|]. inversion Sh_; subst. destruct f; try contradiction.
        left. eexists. left. reflexivity. }
      constructor; cbn [stack jobs outs unlock ids rows full]; auto.
      + intro H. apply okst_leave; [discriminate|exact H].
      + intros r H. apply leave_outs in H as [H|[_ [=]]]. auto.
      + apply incl_refl.
  Qed.

  Lemma CI_step s s' : step kids s s' -> GI init s -> CI s -> CI s'.
  Proof.
    intros St G C. destruct St as [g sh ts t sh' t' Et Ts]. pose proof (gi_threads _ _ G _ _ Et) as TI0. cbn [fst snd] in *.
    pose proof (gi_ids _ _ G) as Gi. cbn [fst] in Gi.
    pose proof (TS_step _ _ _ _ _ Ts TI0 (fun o H => proj2 (Gi o) (or_intror H))) as S_.
    destruct C as [C1 C2 C3 C4 C5 C6 C7]. cbn [fst snd] in *. pose proof (nth_error_In _ _ Et) as It.
    assert (Inp : forall u, In u (put ts g t') -> u = t' \/ In u ts).
    { intros u H. apply In_nth_error in H as [h E]. rewrite nth_put in E. destruct (Nat.eqb h g); [rewrite Et in E; injection E as <-; auto|right; eapply nth_error_In, E]. }
    assert (Ip : In t' (put ts g t')). { apply (nth_error_In _ g). now rewrite nth_put, Nat.eqb_refl, Et. }
    assert (Io : forall u, In u ts -> u = t \/ In u (put ts g t')).
    { intros u H. apply In_nth_error in H as [h E]. destruct (Nat.eq_dec h g) as [Eq|Ne]; [subst h; left; congruence|].
      right. apply (nth_error_In _ h). rewrite nth_put. apply Nat.eqb_neq in Ne. now rewrite Ne. }
    assert (Er : err (sh, ts) -> err (sh', put ts g t')).
    { intros (u & Hu & Te). destruct (Io u Hu) as [->|H]; [exists t'; split; [exact Ip|exact (s_err _ _ _ _ S_ Te)]|exists u; auto]. }
    assert (F' : fine t') by (eapply fine_step; [exact Ts|exact TI0|exact C1|apply C2, It]).
    constructor; cbn [fst snd].
    - intros o H. destruct (step_shared _ _ _ _ _ _ Ts TI0) as [_ [[R _]|(p & R & _ & Fp & Op)]]; rewrite R in H; [auto|].
      apply in_app_or in H as [H|[<-|[]]]; [auto|]. apply wanted_new.
      + apply (ti_own _ _ _ TI0) in Op. unfold held in Op. apply in_flat_map in Op as (f & Hf & Hp). destruct (C2 t It) as [_ K].
        specialize (K f Hf) as [K _]. destruct f; cbn in Hp; try contradiction; destruct Hp as [<-|[]]; exact K.
      + destruct (init p) eqn:E; [|reflexivity]. assert (ids sh p = true) by (apply Gi; auto). congruence.
    - intros u H. destruct (Inp u H) as [->|H']; auto.
    - intros u H. destruct (Inp u H) as [->|H']; [apply (s_ok _ _ _ _ S_), C3, It|]. eapply okst_mono; [exact (s_mono _ _ _ _ S_)|auto].
    - intros u r H Hr. destruct (Inp u H) as [->|H']; [|apply (s_mono _ _ _ _ S_); eauto].
      destruct (s_outs _ _ _ _ S_ r Hr) as [A|A]; [|exact A]. apply (s_mono _ _ _ _ S_). eauto.
    - assert (Rm : incl (rows sh) (rows sh')).
      { destruct (step_shared _ _ _ _ _ _ Ts TI0) as [_ [[R _]|(p & R & _)]]; rewrite R; [apply incl_refl|]. intros x Hx. apply in_or_app. auto. }
      intros o H. destruct (s_full _ _ _ _ S_ o H) as [A|[r E]].
      + destruct (C5 o A) as [A1 A2]. split; [apply Rm, A1|]. intros k Hk. apply (s_mono _ _ _ _ S_), A2, Hk.
      + split; [apply Rm; apply (ti_rows _ _ _ TI0 o []); rewrite E; now left|]. intros k Hk. apply (s_mono _ _ _ _ S_).
        pose proof (C3 t It) as K. rewrite E in K. destruct K as [K _]. destruct (K k Hk) as [[]|[A|A]]; [exact A|discriminate].
    - intros o H. destruct (s_rows _ _ _ _ S_ o H) as [A|[ks A]]; [|right; right; exists t', ks; auto].
      destruct (C6 o A) as [B|[B|(u & ks & Hu & B)]]; [left; apply (s_fullmono _ _ _ _ S_), B|auto|].
      destruct (Io u Hu) as [->|Hu']; [|right; right; exists u, ks; auto].
      destruct (s_kids _ _ _ _ S_ o ks B) as [D|[D|[ks' D]]]; [auto|right; left; exists t'; auto|right; right; exists t', ks'; auto].
    - intros h js Ej. destruct (C7 h js Ej) as (u & Eu & K). destruct (Nat.eq_dec h g) as [Eq|Ne].
      + subst h. rewrite Et in Eu. injection Eu as <-. exists t'. rewrite nth_put, Nat.eqb_refl, Et. split; [reflexivity|]. intros r Hr.
        destruct (K r Hr) as [A|[A|[A|A]]].
        * apply (s_root _ _ _ _ S_). auto.
        * right. left. now apply (s_mono _ _ _ _ S_).
        * apply (s_root _ _ _ _ S_). auto.
        * right. right. right. now apply (s_err _ _ _ _ S_).
      + exists u. rewrite nth_put. apply Nat.eqb_neq in Ne. rewrite Ne. split; [exact Eu|]. intros r Hr.
        destruct (K r Hr) as [A|[A|A]]; [auto|right; left; now apply (s_mono _ _ _ _ S_)|auto].
  Qed.
  Lemma CI_start : CI (start init work).
  Proof.
    assert (X : forall t, In t (map (fun js => T [] js []) work) -> exists js, In js work /\ t = T [] js []).
    { intros t H. apply in_map_iff in H as (js & <- & H). eauto. }
    constructor; cbn.
    - intros o [].
    - intros t H. destruct (X t H) as (js & Hj & ->). split; cbn; [|intros f []]. intros o Ho. exists js. auto.
    - intros t H. destruct (X t H) as (js & Hj & ->). exact I.
    - intros t r H. destruct (X t H) as (js & Hj & ->). intros [].
    - intros o [].
    - intros o [].
    - intros g js E. exists (T [] js []). rewrite nth_error_map, E. split; [reflexivity|]. auto.
  Qed.
  Lemma CI_run n s : run kids (start init work) n s -> CI s.
  Proof.
    remember (start init work) as s0 eqn:E. induction 1 as [s|s n s' s'' R IH St]; [subst; apply CI_start|].
    eapply CI_step; [exact St| |auto]. subst. eapply GI_run, R.
  Qed.

  (** at the end, without errors *)
  Lemma contents n s : run kids (start init work) n s -> finished s -> no_error s ->
    (forall o, In o (rows (fst s)) <-> new o) /\ (forall o, In o (full (fst s)) <-> new o).
  Proof.
    intros R F Ne. pose proof (GI_run _ _ _ _ _ R) as G. destruct (CI_run _ _ R) as [C1 C2 C3 C4 C5 C6 C7].
    assert (Nt : forall t, In t (snd s) -> ~ terr t).
    { intros t Ht [(o & H)|(o & H)]; [destruct (F t Ht) as [E _]; now rewrite E in H|]. now specialize (Ne t o false Ht H). }
    assert (Rf : forall o, In o (rows (fst s)) -> In o (full (fst s))).
    { intros o H. destruct (C6 o H) as [A|[(t & Ht & A)|(t & ks & Ht & A)]]; [exact A|destruct (Nt t Ht A)|].
      destruct (F t Ht) as [E _]. now rewrite E in A. }
    assert (Ids : forall o, ids (fst s) o = true -> init o = false -> In o (rows (fst s))).
    { intros o H I. apply (gi_ids _ _ G) in H as [H|H]; [congruence|exact H]. }
    assert (All : forall o, new o -> In o (rows (fst s))).
    { intros o (r & (js & Hjs & Hr) & Nf). apply In_nth_error in Hjs as [g Eg]. destruct (C7 g js Eg) as (t & Et & K).
      pose proof (nth_error_In _ _ Et) as It. destruct (F t It) as [Es Ej]. specialize (K r Hr). rewrite Es, Ej in K.
      assert (Ir : ids (fst s) r = true) by (destruct K as [[]|[K|[K|K]]]; [exact K|discriminate|destruct (Nt t It K)]).
      clear - Nf Ir Ids C5 Rf. induction Nf as [o I|r o k Nf IH Hk I]; [auto|]. apply Ids; [|exact I]. apply (C5 o (Rf o (IH Ir))). exact Hk. }
    split; intro o; split; auto. intro H. apply C1. apply C5, H.
  Qed.
End Contents.
