From Verif Require Import Base LoadModel LoadSpec LoadProofs LoadRuns.

Section Contents.
  Context (W : world).
  Notation raw := (raw W). Notation norm := (norm W). Notation pack := (pack W).
  Notation answer := (answer W). Notation distinct := (distinct W). Notation inv := (inv W).

  (** ** only loaded resources have contents *)
  Definition bare (s : state) : Prop := forall r, loaded s r = false -> roots s r = [].
  Lemma bare_addRoot s r f o : bare s -> bare (addRoot s r f o).
  Proof.
    intros B. unfold addRoot. destruct (existsb _ _); [assumption|]. intros x. cbn. unfold upd. destruct (Nat.eqb x r); [discriminate|]. apply B.
  Qed.
  Lemma bare_decode demand : (forall s p s' x, bare s -> demand s p = Done s' x -> bare s') ->
    forall l s r s' x, bare s -> decode W demand s r l = Done s' x -> bare s'.
  Proof.
    intro H. induction l as [|[f o|p|c] l IH]; intros s r s' x B; cbn.
    - intro E. injection E as <- _. assumption.
    - apply IH. now apply bare_addRoot.
    - intro E. apply bind_done in E. destruct E as (s1 & y & E1 & E2). eapply IH; [|exact E2]. eapply H; eauto.
    - apply IH. exact B.
  Qed.
  Lemma bare_load demand : (forall s p s' x, bare s -> demand s p = Done s' x -> bare s') ->
    forall s r s' x, bare s -> load W demand s r = Done s' x -> bare s'.
  Proof.
    intros H s r s' x B. assert (K : forall s0 (u : unit), bare s0 -> Done s0 u = Done s' x -> bare s') by (intros ? ? ? E; injection E as <- _; assumption).
    unfold load. destruct (loaded s r) eqn:L; [now apply K|]. destruct (uri s r); [|now apply K]. destruct (source W _); [apply K; exact B|now apply K|].
    unfold loadWithReader. rewrite L. destruct (codec W _) as [c|]; [|apply K; exact B]. destruct (c d) as [l|]; [|apply K; exact B].
    intro E. apply bind_done in E. destruct E as (s1 & y & E1 & E2). apply (bare_decode demand H) in E1.
    - injection E2 as <- _. exact E1.
    - intros z. cbn. unfold upd. destruct (Nat.eqb z r); [discriminate|]. apply B.
  Qed.
  Lemma bare_new s : bare s -> bare (fst (newResource s)).
  Proof. intros B r. cbn. unfold upd. destruct (Nat.eqb r (next s)); [reflexivity|apply B]. Qed.
  Lemma bare_create s p : bare s -> bare (fst (createResource s p)).
  Proof. intros B r. cbn. unfold upd. destruct (Nat.eqb r (next s)); [reflexivity|apply B]. Qed.
  Lemma bare_remember s p r : bare s -> bare (remember s p r).
  Proof. intro B. unfold remember. now destruct (cache s). Qed.
  Lemma bare_get demand : (forall s p s' x, bare s -> demand s p = Done s' x -> bare s') ->
    forall s p b s' x, bare s -> getResourceWith W demand s p b = Done s' x -> bare s'.
  Proof.
    intros H s p b s' x B. unfold getResourceWith.
    assert (K : forall r s1 y, (if b && negb (loaded s r) then load W demand s r else Done s tt) = Done s1 y -> bare s1).
    { intros r s1 y. destruct (b && negb (loaded s r)); [now apply bare_load|]. intro E. injection E as <- _. assumption. }
    destruct (match cache s with Some c => c p | None => None end) as [r|].
    { intro E. apply bind_done in E. destruct E as (s1 & y & E1 & E2). injection E2 as <- _. eapply K; eauto. }
    destruct (pack (raw p)) as [r|]; [intro E; injection E as <- _; now apply bare_remember|]. destruct (scan W s _ _) as [r| |]; [| |discriminate].
    - intro E. apply bind_done in E. destruct E as (s1 & y & E1 & E2). injection E2 as <- _. apply bare_remember. eapply K; eauto.
    - destruct b; [|intro E; injection E as <- _; assumption]. pose proof (bare_create s p B) as B1. destruct (createResource s p) as [s0 r]. intro E. apply bind_done in E.
      destruct E as (s1 & y & E1 & E2). injection E2 as <- _. apply bare_remember. eapply bare_load; eauto.
  Qed.
  Lemma bare_getResource n : forall s p b s' x, bare s -> getResource W n s p b = Done s' x -> bare s'.
  Proof. induction n as [|n IH]; [discriminate|]. cbn [getResource]. apply bare_get. intros s p s' x. apply IH. Qed.
  Lemma bare_perform fuel s c s' x : bare s -> perform W fuel s c = Done s' x -> bare s'.
  Proof.
    intro B. destruct c as [p b|p b|p| |r|r u|r|r|r f o|b]; cbn.
    - now apply bare_getResource.
    - unfold getEObject. intro E. apply bind_done in E. destruct E as (s1 & y & E1 & E2). injection E2 as <- _. eapply bare_getResource; eauto.
    - intro E. injection E as <- _. now apply (bare_create s p).
    - intro E. injection E as <- _. now apply (bare_new s).
    - intro E. now injection E as <- _.
    - intro E. now injection E as <- _.
    - intro E. apply bind_done in E. destruct E as (s1 & y & E1 & E2). injection E2 as <- _. eapply bare_load; [|exact B|exact E1]. intros s0 p0 s' x'. apply bare_getResource.
    - intro E. injection E as <- _. unfold unload. destruct (loaded s r); [|assumption]. intros z. cbn. unfold upd. destruct (Nat.eqb z r); [reflexivity|apply B].
    - intro E. injection E as <- _. now apply bare_addRoot.
    - intro E. now injection E as <- _.
  Qed.
  Lemma bare_later allowed s s' : bare s -> later W allowed s s' -> bare s'.
  Proof. intro B. induction 1 as [|s1 c fuel s2 x L IH A R]; [assumption|]. eapply bare_perform; eauto. Qed.

  (** ** the contents are those of the document *)
  Section Step.
    Variables (U : list text) (n : nat).
    Hypothesis Hclosed : closed W U.
    Variable demand : state -> ptr -> result (option nat).
    Hypothesis Hdemand : forall s p, inv s -> In (norm (raw p)) U -> (pending W U s < n)%nat -> exists s' x, demand s p = Done s' x /\ answers W s p s' x.

    Lemma existsb_snd o (l : list (fragment * nat)) : existsb (fun e => Nat.eqb (snd e) o) l = existsb (Nat.eqb o) (map snd l).
    Proof. induction l as [|[f x] l IH]; [reflexivity|]. cbn. now rewrite IH, (Nat.eqb_sym x o). Qed.
    Lemma contents_same l : forall a b, (forall x, In x a <-> In x b) -> contents a l = contents b l.
    Proof.
      induction l as [|[f o|p|c] l IH]; intros a b H; cbn; auto.
      assert (E : existsb (Nat.eqb o) a = existsb (Nat.eqb o) b).
      { apply eq_iff_eq_true. rewrite !existsb_exists. split; intros (x & Hx & Ho); exists x; (split; [apply H; assumption|assumption]). }
      rewrite E. destruct (existsb _ b); [auto|]. f_equal. apply IH. intro x. cbn. now rewrite H.
    Qed.
    Lemma decode_contents r l : (forall p, In (Demand p) l -> In (norm (raw (trim W p))) U) -> forall s s', inv s -> (pending W U s < n)%nat ->
      (r < next s)%nat -> loaded s r = true -> decode W demand s r l = Done s' tt ->
      roots s' r = roots s r ++ contents (map snd (roots s r)) l /\ errors s' r = errors s r ++ complaints l.
    Proof.
      induction l as [|a l IH]; intros Hl s s' I Hp Hr L; cbn [decode].
      - intro E. injection E as <-. cbn. now rewrite !app_nil_r.
      - assert (Hl' : forall p, In (Demand p) l -> In (norm (raw (trim W p))) U) by (intros p H; apply Hl; now right).
        destruct a as [f o|p|c].
        + intro E. destruct (addRoot_ext W s r f o I) as (X & I1 & _). apply (IH Hl') in E; auto.
          * destruct E as [E1 E2]. unfold complaints in *. cbn [flat_map app contents]. unfold addRoot in E1, E2. rewrite existsb_snd in E1, E2.
            destruct (existsb (Nat.eqb o) (map snd (roots s r))); [auto|]. cbn in E1, E2. rewrite upd_eq in E1. split; [|assumption].
            rewrite E1, <- app_assoc. cbn. f_equal. f_equal. apply contents_same. intro x. rewrite map_app, in_app_iff. cbn. tauto.
          * pose proof (pending_ext W U _ _ _ I X). lia.
          * pose proof (e_next _ _ _ X). lia.
          * now apply (e_loaded _ _ _ X).
        + destruct (Hdemand s (trim W p) I (Hl p (or_introl eq_refl)) Hp) as (s1 & x & R & rr & -> & X & I1 & _). rewrite R. cbn [bind]. intro E.
          apply (IH Hl') in E; auto.
          * destruct (e_keep _ _ _ X r Hr L) as [K1 K2]; [intros []|]. rewrite K1, K2 in E. exact E.
          * pose proof (pending_ext W U _ _ _ I X). lia.
          * pose proof (e_next _ _ _ X). lia.
          * now apply (e_loaded _ _ _ X).
        + intro E. destruct (complain_ext W s r (errors s r ++ [Reported c]) I) as (X & I1 & _). apply (IH Hl') in E; auto.
          * cbn in E. rewrite upd_eq, <- app_assoc in E. exact E.
    Qed.
    Lemma load_contents s r p l s' : inv s -> (r < next s)%nat -> loaded s r = false -> roots s r = [] -> uri s r = Some p -> reads W (raw p) l ->
      (pending W U (log (set_errors (set_loaded (set_loading s r true) r true) r []) r) < n)%nat ->
      load W demand s r = Done s' tt -> loaded s' r = true /\ roots s' r = contents [] l /\ errors s' r = complaints l.
    Proof.
      intros I Hr L Hb Hu (d & c & Es & Ec & Ed) Hp. unfold load. rewrite L, Hu, Es. unfold loadWithReader. rewrite L, Ec, Ed.
      set (s1 := log (set_errors (set_loaded (set_loading s r true) r true) r []) r) in *. intro E.
      assert (I1 : inv s1).
      { apply (inv_state W s); auto; cbn; intros x; unfold upd; destruct (Nat.eqb x r); auto. apply (i_loading _ _ I). }
      assert (Hl : forall p, In (Demand p) l -> In (norm (raw (trim W p))) U) by (intros q Hq; eapply Hclosed; eauto).
      destruct (decode_ok W U n demand Hdemand r l Hl s1 I1 Hp) as (s2 & R2 & E2 & _).
      rewrite R2 in E. cbn in E. injection E as <-. cbn.
      destruct (decode_contents r l Hl s1 s2 I1 Hp) as [K1 K2]; auto; [cbn; apply upd_eq|].
      assert (R0 : roots s1 r = []) by exact Hb. assert (R1 : errors s1 r = []) by (cbn; apply upd_eq). rewrite R0 in K1. rewrite R1 in K2.
      split; [|split; assumption]. apply (e_loaded _ _ _ E2); [exact Hr|cbn; apply upd_eq].
    Qed.
  End Step.
End Contents.

Section Programs.
  Context (W : world) (n : nat) (U : list text).
  Hypothesis HP : packaged W n.
  Hypothesis HU : closed W U.
  Notation raw := (raw W). Notation norm := (norm W). Notation pack := (pack W).

  Lemma bare_empty : bare (empty n).
  Proof. intros r _. reflexivity. Qed.
  Lemma reach_bare allowed s : reach W allowed n s -> bare s.
  Proof. apply bare_later. exact bare_empty. Qed.
  Lemma loading_pending s r : (pending W U (log (set_errors (set_loaded (set_loading s r true) r true) r []) r) <= length U)%nat.
  Proof. apply pending_length. Qed.

  Lemma load_reads fuel s r p l s' x : reach W careful n s -> (r < next s)%nat -> loaded s r = false -> uri s r = Some p -> reads W (raw p) l ->
    perform W fuel s (Load r) = Done s' x -> loaded s' r = true /\ roots s' r = contents [] l /\ errors s' r = complaints l.
  Proof.
    intros R Hr L Hu Hd P. apply (perform_mono W fuel (fuel + length U + 2)) in P; [|lia]. cbn [perform] in P. apply bind_done in P.
    destruct P as (s1 & [] & P & E). injection E as <- _. pose proof (reach_calm W n U HP HU s R) as C.
    eapply (load_contents W U (fuel + length U + 2) HU (demandFrom W (fuel + length U + 2))); eauto.
    - intros s0 p0 I0 H1 H2. now apply (getResource_ok W U).
    - apply (c_inv _ _ _ C).
    - now apply (reach_bare careful).
    - pose proof (loading_pending s r). lia.
  Qed.
  (** what GetResource loads *)
  Lemma get_reads fuel s p s' r l : reach W careful n s -> pack (raw p) = None -> getResource W fuel s p true = Done s' (Some r) ->
    (r = next s \/ loaded s r = false) -> (forall q, uri s' r = Some q -> reads W (raw q) l) ->
    loaded s' r = true /\ roots s' r = contents [] l /\ errors s' r = complaints l.
  Proof.
    intros R Hpk G Hor Hd. pose proof (reach_calm W n U HP HU s R) as C. pose proof (c_inv _ _ _ C) as I. pose proof (reach_bare careful s R) as B.
    apply (getResource_mono W fuel (Datatypes.S (fuel + length U + 2))) in G; [|lia].
    set (m := (fuel + length U + 2)%nat) in *.
    assert (Dem : forall s0 p0, LoadProofs.inv W s0 -> In (norm (raw p0)) U -> (pending W U s0 < m)%nat -> exists s1 y, getResource W m s0 p0 true = Done s1 y /\ answers W s0 p0 s1 y).
    { intros. now apply (getResource_ok W U). }
    assert (Main : forall s0 s1, LoadProofs.inv W s0 -> bare s0 -> (r < next s0)%nat -> loaded s0 r = false -> load W (fun s q => getResource W m s q true) s0 r = Done s1 tt ->
      (forall q, uri s1 r = Some q -> reads W (raw q) l) -> (exists q, uri s0 r = Some q) -> loaded s1 r = true /\ roots s1 r = contents [] l /\ errors s1 r = complaints l).
    { intros s0 s1 I0 B0 Hr L0 Ld Rd (q & Hq). assert (Hp : (pending W U s0 < m)%nat) by (pose proof (pending_length W U s0); unfold m; lia).
      destruct (load_any W U m HU (fun s q => getResource W m s q true) Dem s0 r I0 Hr Hp) as (s2 & Ld' & E & _). rewrite Ld in Ld'. injection Ld' as <-.
      eapply (load_contents W U m HU (fun s q => getResource W m s q true) Dem s0 r q l s1); eauto.
      - apply Rd. now rewrite (e_uri _ _ _ E).
      - pose proof (loading_pending s0 r). unfold m. lia. }
    assert (Rem : forall s1 q y, loaded (remember s1 q y) = loaded s1 /\ roots (remember s1 q y) = roots s1 /\ errors (remember s1 q y) = errors s1 /\ uri (remember s1 q y) = uri s1).
    { intros s1 q y. unfold remember. destruct (cache s1); auto. }
    assert (Here : forall x, answer W s p = Some x -> In x (resources s) /\ (x < next s)%nat /\ exists q, uri s x = Some q).
    { intros x A. unfold answer in A. rewrite Hpk in A. apply find_some in A. destruct A as [A _]. split; [assumption|]. destruct (i_res _ _ I x A) as [A1 A2].
      split; [assumption|]. destruct (uri s x); [eauto|contradiction]. }
    cbn [getResource] in G. unfold getResourceWith in G.
    destruct (match cache s with Some c => c p | None => None end) as [y|] eqn:Ec.
    { apply bind_done in G. destruct G as (s1 & [] & G & E). injection E as <- <-. destruct (cache s) as [c|] eqn:Cc; [|discriminate].
      destruct (Here y (i_cache _ _ I c p y Cc Ec)) as (H1 & H2 & H3). destruct Hor as [->|L]; [lia|]. rewrite L in G. cbn in G. eapply Main; eauto. }
    rewrite Hpk in G. rewrite scan_find in G by (intros z Hz; now apply (i_res _ _ I)).
    destruct (find (stands W s (norm (raw p))) (resources s)) as [y|] eqn:F.
    - apply bind_done in G. destruct G as (s1 & [] & G & E). injection E as <- <-. destruct (Rem s1 p y) as (E1 & E2 & E3 & E4). rewrite E1, E2, E3. rewrite E4 in Hd.
      destruct (Here y) as (H1 & H2 & H3); [unfold answer; now rewrite Hpk|]. destruct Hor as [->|L]; [lia|]. rewrite L in G. cbn in G. eapply Main; eauto.
    - pose proof (bare_create s p B) as B1. destruct (createResource s p) as [s0 y] eqn:Cr. destruct (create_ok W s p s0 y Cr I F) as (-> & X & I0 & _ & F0 & U0).
      apply bind_done in G. destruct G as (s1 & [] & G & E). injection E as <- <-. destruct (Rem s1 p (next s)) as (E1 & E2 & E3 & E4). rewrite E1, E2, E3. rewrite E4 in Hd.
      apply find_some in F0. destruct F0 as [F0 _]. apply (Main s0 s1); eauto.
      + now apply (i_res _ _ I0).
      + unfold createResource, newResource in Cr. injection Cr as <-. cbn. apply upd_eq.
  Qed.
  (** unloading forgets, loading again reads the document again *)
  Lemma reload_reads fuel s r p l s' x : reach W careful n s -> (n <= r < next s)%nat -> loaded s r = true -> uri s r = Some p -> reads W (raw p) l ->
    roots (unload s r) r = [] /\ loaded (unload s r) r = false /\
    (perform W fuel (unload s r) (Load r) = Done s' x -> loaded s' r = true /\ roots s' r = contents [] l /\ errors s' r = complaints l).
  Proof.
    intros R Hr L Hu Hd. split; [|split]; [unfold unload; rewrite L; cbn; apply upd_eq..|].
    intro P. assert (R' : reach W careful n (unload s r)).
    { eapply l_call with (c := Unload r) (fuel := O); [exact R|exact Hr|reflexivity]. }
    apply (load_reads fuel (unload s r) r p l s' x R'); auto; unfold unload; rewrite L; cbn; [lia|apply upd_eq|assumption].
  Qed.
End Programs.
