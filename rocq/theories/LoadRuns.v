From Verif Require Import Base LoadModel LoadSpec LoadProofs.

Section Runs.
  Context (W : world) (n : nat) (U : list text).
  Hypothesis HP : packaged W n.
  Hypothesis HU : closed W U.
  Notation raw := (raw W). Notation norm := (norm W). Notation pack := (pack W).
  Notation answer := (answer W). Notation distinct := (distinct W). Notation inv := (inv W). Notation ext := (ext).

  (** what holds between the calls of a careful program *)
  Record calm (s : state) : Prop := {
    c_inv : inv s;
    c_quiet : forall r, (r < next s)%nat -> loading s r = false;
    c_low : (n <= next s)%nat;
    c_high : forall r, In r (resources s) -> (n <= r)%nat }.

  Lemma calm_empty : calm (empty n).
  Proof.
    constructor; cbn; auto; [|intros r []]. constructor; cbn; try discriminate; [| |constructor].
    - intros t r H. apply HP in H. split; [now apply Nat.ltb_lt|assumption].
    - intros r [].
  Qed.
  Lemma calm_ext D s s' : ext D s s' -> inv s' -> calm s -> calm s'.
  Proof.
    intros E I [C1 C2 C3 C4]. constructor; auto.
    - intros r Hr. rewrite (e_loading _ _ _ E) by assumption. destruct (Nat.ltb_spec r (next s)); auto.
    - pose proof (e_next _ _ _ E). lia.
    - destruct (e_res _ _ _ E) as (l & -> & Hl). intros r Hr. apply in_app_iff in Hr. destruct Hr as [Hr|Hr]; [auto|]. apply Hl in Hr. lia.
  Qed.

  Definition enough (fuel : nat) : Prop := (length U + 1 < fuel)%nat.

  (** calls that only add *)
  Definition additive (c : call) : Prop :=
    match c with GetResource _ _ | GetEObject _ _ | Load _ | Put _ _ _ | CreateResource _ | UseCache _ => True | _ => False end.

  Lemma create_any s p : inv s -> ext nobody s (fst (createResource s p)) /\ inv (fst (createResource s p)).
  Proof.
    intro I. assert (Key : forall x, In x (resources s) -> x <> next s) by (intros x Hx ->; apply (i_res _ _ I) in Hx; lia).
    unfold createResource, newResource. cbn [fst].
    match goal with |- LoadProofs.ext _ _ ?z /\ _ => assert (X : ext nobody s z) end.
    { constructor; cbn -[Nat.ltb].
      + exists [next s]. split; [reflexivity|]. intros x [<-|[]]. lia.
      + lia.
      + intros x Hx. rewrite !upd_ne by lia. reflexivity.
      + intros x Hx. rewrite upd_ne by lia. auto.
      + intros x Hx _ _. rewrite !upd_ne by lia. auto.
      + exists []. rewrite app_nil_r. split; [reflexivity|]. split; [constructor|]. intros x [].
      + intros x Hx. unfold upd. destruct (Nat.eqb_spec x (next s)) as [->|]; [rewrite Nat.ltb_irrefl; reflexivity|].
        destruct (Nat.ltb_spec x (next s)); [reflexivity|lia]. }
    split; [exact X|]. constructor; cbn.
    - intros c q r Hc Hq. apply (answer_ext W nobody s); [assumption|exact X|]. now apply (i_cache _ _ I c).
    - intros t r Ht. apply (i_pack _ _ I) in Ht. split; [apply (e_loaded _ _ _ X); apply Ht|lia].
    - intros x Hx. apply in_app_iff in Hx. destruct Hx as [Hx|[<-|[]]].
      + pose proof (Key x Hx). rewrite !upd_ne by assumption. apply (i_res _ _ I) in Hx. split; [lia|tauto].
      + rewrite upd_eq. split; [lia|discriminate].
    - apply NoDup_app_intro; [apply (i_nodup _ _ I)|constructor; [intros []|constructor]|]. intros x Hx [<-|[]]. now apply (Key (next s)).
    - intros x. unfold upd. destruct (Nat.eqb x (next s)); [discriminate|apply (i_loading _ _ I)].
  Qed.

  Lemma perform_additive fuel s c : enough fuel -> calm s -> careful n s c -> additive c ->
    exists s' x, perform W fuel s c = Done s' x /\ ext (match c with Put r _ _ => eq r | _ => nobody end) s s' /\ calm s'
      /\ (match c with CreateResource _ => True | _ => distinct s -> distinct s' end).
  Proof.
    intros Hf C Hc Ha. pose proof (c_inv _ C) as I.
    assert (G : forall p b, exists s' x, getResource W fuel s p b = Done s' x /\ ext nobody s s' /\ calm s' /\ (distinct s -> distinct s')).
    { intros p b. destruct b.
      - destruct (getResource_true W U fuel s p HU I Hf) as (s' & x & R & r & _ & E & I' & D & _).
        exists s', x. split; [assumption|]. split; [assumption|]. split; [now apply (calm_ext nobody s)|assumption].
      - destruct fuel as [|fuel]; [unfold enough in Hf; lia|]. destruct (getResource_false W fuel s p I) as (s' & R & E & I' & D & _).
        exists s', (answer s p). split; [assumption|]. split; [assumption|]. split; [now apply (calm_ext nobody s)|assumption]. }
    destruct c as [p b|p b|p| |r|r u|r|r|r f o|b]; try contradiction; cbn [perform].
    - apply G.
    - unfold getEObject. destruct (G (trim W p) b) as (s' & x & R & E & C' & D). rewrite R. cbn. eauto 8.
    - destruct (create_any s p I) as [E I']. destruct (createResource s p) as [s' r]. cbn in E, I'. eexists _, _. split; [reflexivity|]. split; [exact E|].
      split; [now apply (calm_ext nobody s)|exact Logic.I].
    - destruct (load_any W U fuel HU (demandFrom W fuel)) with (s := s) (r := r) as (s' & R & E & I' & D & _).
      + unfold demandFrom. intros s0 p0 I0 H1 H2. now apply (getResource_ok W U).
      + assumption.
      + exact Hc.
      + pose proof (pending_length W U s). unfold enough in Hf. lia.
      + rewrite R. cbn. eexists _, _. split; [reflexivity|]. split; [exact E|]. split; [now apply (calm_ext nobody s)|assumption].
    - destruct (addRoot_ext W s r f o I) as (E & I' & D). eexists _, _. split; [reflexivity|]. split; [exact E|]. split; [now apply (calm_ext (eq r) s)|assumption].
    - eexists _, _. split; [reflexivity|]. split; [now apply ext_state|]. destruct I as [I1 I2 I3 I4 I5]. split.
      + destruct C as [C1 C2 C3 C4]. constructor; auto. constructor; auto. cbn. intros c p r. destruct b; [|discriminate]. intros Hx Hy. injection Hx as <-. discriminate.
      + now apply distinct_state.
  Qed.

  Lemma unload_calm s r : calm s -> (n <= r < next s)%nat -> calm (unload s r) /\ (distinct s -> distinct (unload s r)) /\ forall p, answer (unload s r) p = answer s p.
  Proof.
    intros C Hr. unfold unload. destruct (loaded s r); [|auto]. split; [|split; [now apply distinct_state|reflexivity]].
    destruct C as [[I1 I2 I3 I4 I5] C2 C3 C4]. constructor; auto. constructor; auto; cbn.
    - intros t x Hx. pose proof (HP _ _ Hx). rewrite upd_ne by lia. eauto.
    - intros x Hx. unfold upd. destruct (Nat.eqb_spec x r) as [->|]; [|auto]. rewrite C2 in Hx by lia. discriminate.
  Qed.

  Lemma perform_calm fuel s c s' x : calm s -> careful n s c -> perform W fuel s c = Done s' x -> calm s'.
  Proof.
    intros C Hc R.
    assert (Add : additive c -> calm s').
    { intro Ha. destruct (perform_additive (fuel + length U + 2) s c) as (s1 & y & R1 & _ & C1 & _); auto; [unfold enough; lia|].
      apply (perform_mono W fuel (fuel + length U + 2)) in R; [|lia]. rewrite R in R1. injection R1 as <- <-. assumption. }
    destruct c as [p b|p b|p| |r|r u|r|r|r f o|b]; try (apply Add; exact Logic.I); cbn in Hc; [contradiction| | |].
    - injection R as <- <-. destruct C as [[I1 I2 I3 I4 I5] C2 C3 C4]. constructor; auto.
      + constructor; auto; cbn.
        * intros c q y. destruct Hc as [_ ->]. discriminate.
        * intros y Hy. apply filter_In in Hy. apply I3. tauto.
        * now apply NoDup_filter.
      + cbn. intros y Hy. apply filter_In in Hy. apply C4. tauto.
    - destruct u as [q|]; [|contradiction]. injection R as <- <-. destruct C as [[I1 I2 I3 I4 I5] C2 C3 C4]. constructor; auto. constructor; auto; cbn.
      + intros c q' y. destruct Hc as [_ ->]. discriminate.
      + intros y Hy. unfold upd. destruct (Nat.eqb y r); [|auto]. split; [now apply I3|discriminate].
    - injection R as <- <-. now apply unload_calm.
  Qed.
  Lemma later_calm (allowed : nat -> state -> call -> Prop) s s' : (forall s c, calm s -> allowed n s c -> careful n s c) -> calm s -> later W (allowed n) s s' -> calm s'.
  Proof. intros H C. induction 1 as [|s1 c fuel s2 x L IH A R]; [assumption|]. eapply perform_calm; eauto. Qed.
  Lemma asking_careful s c : asking n s c -> careful n s c.
  Proof. destruct c as [p b|p b|p| |r|r u|r|r|r f o|b]; cbn; tauto. Qed.
  Lemma keeping_careful s c : keeping n s c -> careful n s c.
  Proof. now intros [H _]. Qed.
  Lemma reach_calm s : reach W careful n s -> calm s.
  Proof. apply later_calm; [auto|exact calm_empty]. Qed.

  (** GetResource *)
  Lemma get_resource fuel s p b : enough fuel -> reach W careful n s ->
    exists s' x, getResource W fuel s p b = Done s' x
      /\ x = match answer s p with Some r => Some r | None => if b then Some (next s) else None end
      /\ (exists l, resources s' = resources s ++ l)
      /\ (forall q r, answer s q = Some r -> answer s' q = Some r)
      /\ (if b
          then answer s' p = x
            /\ (answer s p = None -> ~ In (next s) (resources s) /\ In (next s) (resources s') /\ uri s' (next s) = Some p)
            /\ (pack (raw p) = None -> forall r, x = Some r -> outcome W s' (norm (raw p)) r)
          else resources s' = resources s /\ uri s' = uri s /\ loaded s' = loaded s /\ roots s' = roots s /\ errors s' = errors s /\ decoded s' = decoded s).
  Proof.
    intros Hf R. pose proof (reach_calm s R) as C. pose proof (c_inv _ C) as I. destruct b.
    - destruct (getResource_true W U fuel s p HU I Hf) as (s' & x & Rs & r & -> & E & I' & D & A & B & O). exists s', (Some r). split; [assumption|]. split; [|split; [|split; [|split; [|split]]]].
      + destruct B as [->|(-> & -> & _)]; reflexivity.
      + destruct (e_res _ _ _ E) as (l & Hl & _). eauto.
      + intros q y. now apply (answer_ext W nobody).
      + assumption.
      + intro N. destruct B as [B|(_ & -> & Hu)]; [congruence|]. split; [|split; [|assumption]].
        * intro Hin. apply (i_res _ _ I) in Hin. lia.
        * assert (F := A). unfold LoadSpec.answer in F. unfold LoadSpec.answer in N. destruct (pack (raw p)); [discriminate|]. apply find_some in F. tauto.
      + intros Hp y Hy. injection Hy as <-. auto.
    - destruct fuel as [|fuel]; [unfold enough in Hf; lia|]. destruct (getResource_false W fuel s p I) as (s' & Rs & E & I' & D & E1 & E2 & E3 & E4 & E5 & E6 & E7).
      exists s', (answer s p). split; [assumption|]. split; [now destruct (answer s p)|]. split; [|split; [|tauto]].
      + exists []. now rewrite app_nil_r.
      + intros q r. now rewrite (answer_state W s s') by assumption.
  Qed.

  (** programs that only ask *)
  Lemma asking_step fuel s c s' x : calm s -> asking n s c -> perform W fuel s c = Done s' x ->
    calm s' /\ (distinct s -> distinct s') /\ forall p r, answer s p = Some r -> answer s' p = Some r.
  Proof.
    intros C Ha R. split; [eapply perform_calm; eauto; now apply asking_careful|].
    assert (Add : additive c -> (distinct s -> distinct s') /\ forall p r, answer s p = Some r -> answer s' p = Some r).
    { intro Hd. destruct (perform_additive (fuel + length U + 2) s c) as (s1 & y & R1 & E & C1 & D); auto; [unfold enough; lia|now apply asking_careful|].
      apply (perform_mono W fuel (fuel + length U + 2)) in R; [|lia]. rewrite R in R1. injection R1 as <- <-. split.
      - destruct c; try exact D. contradiction.
      - intros p r. eapply answer_ext; [apply (c_inv _ C)|exact E]. }
    destruct c as [p b|p b|p| |r|r u|r|r|r f o|b]; try (apply Add; exact Logic.I); cbn in Ha; try contradiction.
    injection R as <- <-. destruct (unload_calm s r C Ha) as (_ & D & A). split; [assumption|]. intros p y. now rewrite A.
  Qed.
  Lemma asking_later s s' : calm s -> later W (asking n) s s' -> calm s' /\ (distinct s -> distinct s') /\ forall p r, answer s p = Some r -> answer s' p = Some r.
  Proof.
    intros C. induction 1 as [|s1 c fuel s2 x L IH A R]; [auto|]. destruct IH as (C1 & D1 & A1).
    destruct (asking_step fuel s1 c s2 x C1 A R) as (C2 & D2 & A2). split; [assumption|]. split; auto.
  Qed.
  Lemma asking_reach s : reach W asking n s -> calm s /\ distinct s.
  Proof.
    intro R. destruct (asking_later _ _ calm_empty R) as (C & D & _). split; [assumption|]. apply D. intros r r' k [].
  Qed.
  Lemma asked_stays s p b fuel s1 r s2 : reach W careful n s -> getResource W fuel s p b = Done s1 (Some r) -> later W (asking n) s1 s2 -> answer s2 p = Some r.
  Proof.
    intros R G L. pose proof (reach_calm s R) as C.
    destruct (get_resource (fuel + length U + 2) s p b) as (s' & x & G' & Hx & _ & St & B); [unfold enough; lia|assumption|].
    apply (getResource_mono W fuel (fuel + length U + 2)) in G; [|lia]. rewrite G in G'. injection G' as <- <-.
    assert (C1 : calm s1) by (apply (perform_calm (fuel + length U + 2) s (GetResource p b) s1 (Some r)); auto; exact Logic.I).
    destruct (asking_later _ _ C1 L) as (_ & _ & A). apply A. destruct b; [apply B|]. apply St.
    destruct (answer s p); [congruence|discriminate].
  Qed.
  Lemma asked_alike s p b fuel s1 r s2 p' b' fuel' s3 r' :
    reach W asking n s -> getResource W fuel s p b = Done s1 (Some r) -> later W (asking n) s1 s2 -> getResource W fuel' s2 p' b' = Done s3 (Some r') ->
    pack (raw p) = None -> pack (raw p') = None -> (r = r' <-> norm (raw p) = norm (raw p')).
  Proof.
    intros R G L G' Hp Hp'.
    assert (Step : forall s c, asking n s c -> careful n s c) by (intros; now apply asking_careful).
    assert (Lift : forall s0 s', later W (asking n) s0 s' -> later W (careful n) s0 s') by (induction 1; [constructor|econstructor; eauto]).
    assert (App : forall s0 s1 s2, later W (asking n) s0 s1 -> later W (asking n) s1 s2 -> later W (asking n) s0 s2) by (intros ? ? ? X; induction 1; [assumption|econstructor; eauto]).
    assert (R1 : reach W asking n s1) by (eapply l_call with (c := GetResource p b); [exact R|exact Logic.I|exact G]).
    assert (R2 : reach W asking n s2) by (eapply App; eauto).
    assert (R3 : reach W asking n s3) by (eapply l_call with (c := GetResource p' b'); [exact R2|exact Logic.I|exact G']).
    assert (A : answer s3 p = Some r).
    { apply (asked_stays s p b fuel s1 r s3 (Lift _ _ R) G). eapply l_call with (c := GetResource p' b'); [exact L|exact Logic.I|exact G']. }
    assert (A' : answer s3 p' = Some r') by (apply (asked_stays s2 p' b' fuel' s3 r' s3 (Lift _ _ R2) G'); constructor).
    unfold LoadSpec.answer in A, A'. rewrite Hp in A. rewrite Hp' in A'. split.
    - intros <-. apply find_stands_some in A. apply find_stands_some in A'. destruct A as [_ A], A' as [_ A']. rewrite A in A'. now injection A'.
    - intro E. rewrite E in A. rewrite A in A'. now injection A'.
  Qed.

  (** each resource is decoded once *)
  Lemma decoded_once fuel s c : enough fuel -> reach W careful n s -> careful n s c -> additive c ->
    exists s' x l, perform W fuel s c = Done s' x /\ decoded s' = decoded s ++ l /\ NoDup l
      /\ (forall r, In r l -> ((r < next s)%nat -> loaded s r = false) /\ loaded s' r = true)
      /\ (forall r, (r < next s)%nat -> loaded s r = true -> (forall f o, c <> Put r f o) -> roots s' r = roots s r /\ errors s' r = errors s r /\ loaded s' r = true)
      /\ (forall r, (r < next s')%nat -> loading s' r = false).
  Proof.
    intros Hf R Hc Ha. pose proof (reach_calm s R) as C. destruct (perform_additive fuel s c Hf C Hc Ha) as (s' & x & P & E & C' & _).
    destruct (e_dec _ _ _ E) as (l & H1 & H2 & H3). exists s', x, l. split; [assumption|]. split; [assumption|]. split; [assumption|]. split; [|split].
    - intros r Hr. destruct (H3 r Hr) as (A1 & _ & A3). auto.
    - intros r Hr L Hn. assert (N : ~ (match c with Put r _ _ => eq r | _ => nobody end) r).
      { destruct c; try exact (fun Q => Q). intro Q. apply (Hn f o). now rewrite Q. }
      destruct (e_keep _ _ _ E r Hr L N) as [A1 A2]. split; [assumption|]. split; [assumption|]. now apply (e_loaded _ _ _ E).
    - apply (c_quiet _ C').
  Qed.
  Lemma kept_once s : reach W keeping n s -> calm s /\ NoDup (decoded s) /\ forall r, In r (decoded s) -> (r < next s)%nat /\ loaded s r = true.
  Proof.
    intro R. induction R as [|s1 c fuel s2 x L IH A P].
    - split; [exact calm_empty|]. split; [constructor|]. intros r [].
    - destruct IH as (C & N & D). destruct A as [A1 A2]. split; [eapply perform_calm; eauto|].
      assert (Add : additive c -> NoDup (decoded s2) /\ forall r, In r (decoded s2) -> (r < next s2)%nat /\ loaded s2 r = true).
      { intro Ha. destruct (perform_additive (fuel + length U + 2) s1 c) as (s' & y & P' & E & C' & _); auto; [unfold enough; lia|].
        apply (perform_mono W fuel (fuel + length U + 2)) in P; [|lia]. rewrite P in P'. injection P' as <- <-.
        destruct (e_dec _ _ _ E) as (l & -> & H2 & H3). split.
        - apply NoDup_app_intro; auto. intros r Hr Hl. destruct (D r Hr) as [B1 B2]. destruct (H3 r Hl) as (B3 & _). rewrite B3 in B2 by assumption. discriminate.
        - intros r Hr. apply in_app_iff in Hr. destruct Hr as [Hr|Hr]; [|destruct (H3 r Hr) as (_ & B); exact B].
          destruct (D r Hr) as [B1 B2]. pose proof (e_next _ _ _ E). split; [lia|now apply (e_loaded _ _ _ E)]. }
      destruct c as [p b|p b|p| |r|r u|r|r|r f o|b]; try (apply Add; exact Logic.I); cbn in A1; try contradiction; injection P as <- <-; auto.
  Qed.
End Runs.
