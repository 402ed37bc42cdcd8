(** Proofs about the two mutexes of a store-backed map. *)
From Verif Require Import Base StoreMapModel StoreMapSpec.

(** the sections of a call *)
Inductive sec := SM | SL | SML (n : nat) | SLM.
Definition code (x : sec) : list lockop :=
  match x with
  | SM => [Lock MapMutex; Unlock MapMutex]
  | SL => [Lock ListMutex; Unlock ListMutex]
  | SML n => Lock MapMutex :: queries (S n) ++ [Unlock MapMutex]
  | SLM => [Lock ListMutex; Lock MapMutex; Unlock MapMutex; Unlock ListMutex]
  end.
Definition codes (l : list sec) : list lockop := concat (map code l).
Definition secs (c : lockcall) : list sec :=
  match c with
  | CGetValue None => [SM]
  | CGetValue (Some n) => [SML n]
  | CAdd | CRemove | CClear => [SLM]
  | CScan n => repeat SL n
  | CPutExisting n => repeat SL n ++ [SM]
  end.
Definition prog (l : list lockcall) : list sec := concat (map secs l).

Lemma codes_app a b : codes (a ++ b) = codes a ++ codes b.
Proof. unfold codes. now rewrite map_app, concat_app. Qed.
Lemma codes_repeat n : codes (repeat SL n) = queries n.
Proof. induction n as [|n IH]; [reflexivity|]. cbn [repeat queries]. change (codes (SL :: repeat SL n)) with (code SL ++ codes (repeat SL n)). now rewrite IH. Qed.
Lemma locking_codes c : locking c = codes (secs c).
Proof. destruct c as [[n|]| | | |n|n]; try reflexivity; [cbn; now rewrite app_nil_r|..]; cbn [locking secs]; rewrite ?codes_app, codes_repeat; reflexivity. Qed.
Lemma prog_codes l : concat (map locking l) = codes (prog l).
Proof. induction l as [|c l IH]; [reflexivity|]. cbn [map concat]. change (prog (c :: l)) with (secs c ++ prog l). rewrite codes_app, <- IH, locking_codes. reflexivity. Qed.
Lemma prog_builds l n0 : In (SML n0) (prog l) -> exists c, In c l /\ builds c.
Proof.
  unfold prog. intro H. apply in_concat in H as (x & H & Hx). apply in_map_iff in H as (c & <- & Hc). exists c. split; [exact Hc|].
  destruct c as [[n|]| | | |n|n]; cbn in Hx; try (destruct Hx as [Hx|[]]; discriminate); cbn; auto.
  - apply repeat_spec in Hx. discriminate.
  - apply in_app_iff in Hx as [Hx|[Hx|[]]]; [apply repeat_spec in Hx|]; discriminate.
Qed.
Lemma prog_changes l : In SLM (prog l) -> exists c, In c l /\ changes c.
Proof.
  unfold prog. intro H. apply in_concat in H as (x & H & Hx). apply in_map_iff in H as (c & <- & Hc). exists c. split; [exact Hc|].
  destruct c as [[n|]| | | |n|n]; cbn in Hx; try (destruct Hx as [Hx|[]]; discriminate); cbn; auto.
  - apply repeat_spec in Hx. discriminate.
  - apply in_app_iff in Hx as [Hx|[Hx|[]]]; [apply repeat_spec in Hx|]; discriminate.
Qed.

(** where a goroutine may be, and what it holds there: the map's mutex, the list's mutex *)
Inductive phase (X : list sec) : bool -> bool -> list lockop -> Prop :=
| ph_idle r : incl r X -> phase X false false (codes r)
| ph_m r : incl r X -> phase X true false (Unlock MapMutex :: codes r)
| ph_l r : incl r X -> phase X false true (Unlock ListMutex :: codes r)
| ph_ml1 r n n0 : incl r X -> In (SML n0) X ->
    phase X true false (Lock ListMutex :: Unlock ListMutex :: queries n ++ Unlock MapMutex :: codes r)
| ph_ml2 r n n0 : incl r X -> In (SML n0) X -> phase X true true (Unlock ListMutex :: queries n ++ Unlock MapMutex :: codes r)
| ph_lm1 r : incl r X -> In SLM X -> phase X false true (Lock MapMutex :: Unlock MapMutex :: Unlock ListMutex :: codes r)
| ph_lm2 r : incl r X -> phase X true true (Unlock MapMutex :: Unlock ListMutex :: codes r).

Definition has (h : mutex -> option nat) (m : mutex) (i : nat) : bool :=
  match h m with Some j => Nat.eqb j i | None => false end.
Lemma has_true h m i : has h m i = true <-> h m = Some i.
Proof. unfold has. destruct (h m) as [j|]; [|split; discriminate]. rewrite Nat.eqb_eq. split; congruence. Qed.

Definition linv (cs : list (list lockcall)) (s : locks) : Prop :=
  length (todo s) = length cs
  /\ (forall m j, holder s m = Some j -> (j < length cs)%nat)
  /\ forall i c p, nth_error cs i = Some c -> nth_error (todo s) i = Some p ->
     phase (prog c) (has (holder s) MapMutex i) (has (holder s) ListMutex i) p.

Lemma advance_length l : forall i, length (advance l i) = length l.
Proof. induction l; intros [|i]; cbn; auto. Qed.
Lemma advance_same l : forall i p, nth_error l i = Some p -> nth_error (advance l i) i = Some (tl p).
Proof. induction l as [|q l IH]; intros [|i] p; cbn; try discriminate; auto. intro Q; injection Q as <-. reflexivity. Qed.
Lemma advance_other l : forall i j, i <> j -> nth_error (advance l i) j = nth_error l j.
Proof. induction l as [|q l IH]; intros [|i] [|j] H; cbn; try reflexivity; try congruence. apply IH. congruence. Qed.

Lemma phase_head_lock X a b m p : phase X a b (Lock m :: p) ->
  (m = MapMutex -> a = false /\ phase X true b p) /\ (m = ListMutex -> b = false /\ phase X a true p).
Proof.
  intro H. inversion H as [r Hr E1 E2 E3| | |r n n0 Hr Hx| |r Hr Hx| ]; subst.
  - destruct r as [|x r]; [discriminate|]. assert (incl r X) by (intros y Hy; apply Hr; now right).
    assert (In x X) by (apply Hr; now left).
    change (codes (x :: r)) with (code x ++ codes r) in E3.
    destruct x as [| |n|]; cbn in E3; injection E3 as <- <-; split; intro Q; try discriminate; split; auto;
      [now constructor|now constructor| |now constructor].
    rewrite <- app_assoc. cbn. now apply (ph_ml1 X r n n).
  - split; intro Q; try discriminate. split; auto. now apply (ph_ml2 X r n n0).
  - split; intro Q; try discriminate. split; auto. now constructor.
Qed.
Lemma phase_head_unlock X a b m p : phase X a b (Unlock m :: p) ->
  (m = MapMutex -> a = true /\ phase X false b p) /\ (m = ListMutex -> b = true /\ phase X a false p).
Proof.
  intro H. inversion H as [r Hr E1 E2 E3|r Hr|r Hr| |r n n0 Hr Hx| |r Hr]; subst.
  - destruct r as [|x r]; [discriminate|]. destruct x; discriminate.
  - split; intro Q; try discriminate. split; auto. now constructor.
  - split; intro Q; try discriminate. split; auto. now constructor.
  - split; intro Q; try discriminate. split; auto. destruct n as [|n]; [now constructor|]. cbn. now apply (ph_ml1 X r n n0).
  - split; intro Q; try discriminate. split; auto. now constructor.
Qed.

Lemma has_set h m x m' i : has (set_holder h m x) m' i = if mutex_eqb m' m then match x with Some j => Nat.eqb j i | None => false end else has h m' i.
Proof. unfold has, set_holder. destruct (mutex_eqb m' m); reflexivity. Qed.

Lemma nth_len {X Y} (l : list X) (l' : list Y) i p : length l = length l' -> nth_error l i = Some p -> exists c, nth_error l' i = Some c.
Proof.
  intros H E. destruct (nth_error l' i) as [c|] eqn:Q; [eauto|]. apply nth_error_None in Q.
  assert (i < length l)%nat by (apply nth_error_Some; congruence). lia.
Qed.

Lemma linv_step cs s s' : linv cs s -> lockstep s s' -> linv cs s'.
Proof.
  intros (Hl & Hh & Hp) St. inversion St as [? i m p E F|? i m p E]; subst; clear St.
  - destruct (nth_len _ _ _ _ Hl E) as [c Ec]. pose proof (Hp i c _ Ec E) as Ph. apply phase_head_lock in Ph as [P1 P2].
    assert (Hi : (i < length cs)%nat) by (apply nth_error_Some; congruence).
    split; [cbn; now rewrite advance_length|]. split.
    + cbn. intros m' j. unfold set_holder. destruct (mutex_eqb m' m); [intro Q; now injection Q as <-|apply Hh].
    + cbn. intros k c' p' Ec' Ep. rewrite !has_set. destruct (Nat.eq_dec i k) as [<-|N].
      * rewrite (advance_same _ _ _ E) in Ep. injection Ep as <-. assert (c' = c) by congruence. subst c'.
        rewrite Nat.eqb_refl. destruct m; cbn [mutex_eqb]; [apply P1|apply P2]; reflexivity.
      * rewrite (advance_other _ _ _ N) in Ep. specialize (Hp k c' p' Ec' Ep).
        destruct (Nat.eqb_spec i k); [congruence|].
        destruct m; cbn [mutex_eqb]; unfold has in Hp |- *; rewrite F in Hp; exact Hp.
  - destruct (nth_len _ _ _ _ Hl E) as [c Ec]. pose proof (Hp i c _ Ec E) as Ph. apply phase_head_unlock in Ph as [P1 P2].
    split; [cbn; now rewrite advance_length|]. split.
    + cbn. intros m' j. unfold set_holder. destruct (mutex_eqb m' m); [discriminate|apply Hh].
    + cbn. intros k c' p' Ec' Ep. rewrite !has_set. destruct (Nat.eq_dec i k) as [<-|N].
      * rewrite (advance_same _ _ _ E) in Ep. injection Ep as <-. assert (c' = c) by congruence. subst c'.
        destruct m; cbn [mutex_eqb]; [apply P1|apply P2]; reflexivity.
      * rewrite (advance_other _ _ _ N) in Ep. specialize (Hp k c' p' Ec' Ep).
        assert (Q : holder s m = Some i) by (destruct m; [destruct (P1 eq_refl) as [Q _]|destruct (P2 eq_refl) as [Q _]]; now apply has_true in Q).
        assert (Q' : has (holder s) m k = false) by (unfold has; rewrite Q; now apply Nat.eqb_neq).
        destruct m; cbn [mutex_eqb]; rewrite Q' in Hp; exact Hp.
Qed.
Lemma linv_start cs : linv cs (goroutines cs).
Proof.
  split; [cbn; apply map_length|]. split; [discriminate|].
  intros i c p Ec Ep. cbn in *. rewrite nth_error_map, Ec in Ep. injection Ep as <-. rewrite prog_codes. constructor. apply incl_refl.
Qed.
Lemma linv_reach cs s : locksteps (goroutines cs) s -> linv cs s.
Proof.
  intro H. remember (goroutines cs) as s0 eqn:E0. induction H as [s|s1 s2 s3 _ IH St]; [subst; apply linv_start|].
  apply (linv_step cs s2); auto.
Qed.

(** a goroutine that holds a mutex and cannot go on waits for the other one *)
Lemma waiting cs s : linv cs s -> stuck s -> forall m i, holder s m = Some i ->
  exists c p, nth_error cs i = Some c /\ nth_error (todo s) i = Some p
    /\ (m = MapMutex -> (exists n, In (SML n) (prog c)) /\ holder s ListMutex <> None /\ has (holder s) ListMutex i = false)
    /\ (m = ListMutex -> In SLM (prog c) /\ holder s MapMutex <> None /\ has (holder s) MapMutex i = false).
Proof.
  intros (Hl & Hh & Hp) Hs m i Hm. assert (Hi := Hh m i Hm).
  destruct (nth_error cs i) as [c|] eqn:Ec; [|apply nth_error_None in Ec; lia].
  destruct (nth_len _ (todo s) _ _ (eq_sym Hl) Ec) as [p Ep]. exists c, p. split; [reflexivity|]. split; [exact Ep|].
  specialize (Hp i c p Ec Ep).
  assert (Nu : forall m' q, p <> Unlock m' :: q) by (intros m' q ->; apply (Hs _ (ls_unlock s i m' q Ep))).
  assert (Nl : forall m' q, p = Lock m' :: q -> holder s m' <> None) by (intros m' q -> F; apply (Hs _ (ls_lock s i m' q Ep F))).
  inversion Hp as [r Hr E1 E2 E3|r Hr E1 E2 E3|r Hr E1 E2 E3|r n n0 Hr Hx E1 E2 E3|r n n0 Hr Hx E1 E2 E3|r Hr Hx E1 E2 E3|r Hr E1 E2 E3];
    try (exfalso; symmetry in E3; exact (Nu _ _ E3)); subst p.
  - exfalso. symmetry in E1, E2. assert (T : has (holder s) m i = true) by now apply has_true. destruct m; congruence.
  - split; intros ->.
    + split; [eauto|]. split; [exact (Nl _ _ eq_refl)|reflexivity].
    + exfalso. apply has_true in Hm. congruence.
  - split; intros ->.
    + exfalso. apply has_true in Hm. congruence.
    + split; [exact Hx|]. split; [exact (Nl _ _ eq_refl)|reflexivity].
Qed.

Lemma not_finished s : ~ finished s -> exists i o p, nth_error (todo s) i = Some (o :: p).
Proof.
  unfold finished. induction (todo s) as [|p l IH]; intro H; [elim H; intros p []|].
  destruct p as [|o p]; [|exists 0%nat, o, p; reflexivity].
  destruct IH as (i & o & p & E); [|exists (S i), o, p; exact E].
  intro Q. apply H. intros q [<-|Hq]; auto.
Qed.

Lemma deadlock_needs cs : deadlocks cs ->
  exists i j ci cj, i <> j /\ nth_error cs i = Some ci /\ nth_error cs j = Some cj
    /\ (exists b, In b ci /\ builds b) /\ (exists c, In c cj /\ changes c).
Proof.
  intros (s & R & Hs & Hf). pose proof (linv_reach cs s R) as Hi.
  assert (Hm : exists m j, holder s m = Some j).
  { destruct (not_finished s Hf) as (i & o & p & E). destruct o as [m|m].
    - exists m. destruct (holder s m) as [j|] eqn:F; [eauto|]. elim (Hs _ (ls_lock s i m p E F)).
    - elim (Hs _ (ls_unlock s i m p E)). }
  assert (Both : exists i j, holder s MapMutex = Some i /\ holder s ListMutex = Some j).
  { destruct Hm as (m & j & Hj). destruct (waiting cs s Hi Hs m j Hj) as (c & p & _ & _ & W1 & W2). destruct m.
    - destruct (W1 eq_refl) as (_ & N & _). destruct (holder s ListMutex) as [k|]; [eauto|congruence].
    - destruct (W2 eq_refl) as (_ & N & _). destruct (holder s MapMutex) as [k|]; [eauto|congruence]. }
  destruct Both as (i & j & Ei & Ej).
  destruct (waiting cs s Hi Hs MapMutex i Ei) as (ci & _ & Eci & _ & W & _). destruct (W eq_refl) as ([nb B] & _ & Nh).
  destruct (waiting cs s Hi Hs ListMutex j Ej) as (cj & _ & Ecj & _ & _ & W'). destruct (W' eq_refl) as (C & _ & _).
  exists i, j, ci, cj. split.
  - intros <-. apply has_true in Ej. congruence.
  - split; [exact Eci|]. split; [exact Ecj|]. split; [exact (prog_builds _ _ B)|now apply prog_changes].
Qed.

(** *** reaching the deadlock *)
Lemma locksteps_trans a b c : locksteps a b -> locksteps b c -> locksteps a c.
Proof. intros H1 H2. revert H1. induction H2 as [|s1 s2 s3 _ IH St]; intro H1; [exact H1|]. exact (lss_step _ _ _ (IH H1) St). Qed.
Lemma locksteps_one a b : lockstep a b -> locksteps a b.
Proof. intro H. econstructor; [constructor|exact H]. Qed.

(** what the steps of one goroutine leave *)
Definition others (s s' : locks) (i : nat) : Prop := forall k, k <> i -> nth_error (todo s') k = nth_error (todo s) k.
Lemma others_trans a b c i : others a b i -> others b c i -> others a c i.
Proof. intros H1 H2 k N. now rewrite H2, H1. Qed.

Lemma do_lock s i m p : nth_error (todo s) i = Some (Lock m :: p) -> holder s m = None ->
  exists s', lockstep s s' /\ nth_error (todo s') i = Some p /\ others s s' i
             /\ forall m', holder s' m' = if mutex_eqb m' m then Some i else holder s m'.
Proof.
  intros E F. eexists. split; [exact (ls_lock s i m p E F)|]. split; [cbn; now rewrite (advance_same _ _ _ E)|].
  split; [|reflexivity]. intros k N. cbn. now rewrite advance_other by congruence.
Qed.
Lemma do_unlock s i m p : nth_error (todo s) i = Some (Unlock m :: p) ->
  exists s', lockstep s s' /\ nth_error (todo s') i = Some p /\ others s s' i
             /\ forall m', holder s' m' = if mutex_eqb m' m then None else holder s m'.
Proof.
  intros E. eexists. split; [exact (ls_unlock s i m p E)|]. split; [cbn; now rewrite (advance_same _ _ _ E)|].
  split; [|reflexivity]. intros k N. cbn. now rewrite advance_other by congruence.
Qed.

Lemma run_queries n : forall s i p, nth_error (todo s) i = Some (queries n ++ p) -> holder s ListMutex = None ->
  exists s', locksteps s s' /\ nth_error (todo s') i = Some p /\ others s s' i /\ forall m, holder s' m = holder s m.
Proof.
  induction n as [|n IH]; intros s i p E F; cbn [queries app] in E.
  - exists s. split; [constructor|]. split; [exact E|]. split; [intros k _; reflexivity|reflexivity].
  - destruct (do_lock _ _ _ _ E F) as (s1 & S1 & E1 & O1 & H1).
    destruct (do_unlock _ _ _ _ E1) as (s2 & S2 & E2 & O2 & H2).
    destruct (IH s2 i p E2) as (s3 & S3 & E3 & O3 & H3); [rewrite H2; reflexivity|].
    exists s3. split; [exact (locksteps_trans _ _ _ (lss_step _ _ _ (locksteps_one _ _ S1) S2) S3)|].
    split; [exact E3|]. split; [eauto using others_trans|].
    intro m. rewrite H3, H2, H1. destruct m; cbn; auto.
Qed.
Lemma run_sec x : forall s i p, nth_error (todo s) i = Some (code x ++ p) -> (forall m, holder s m = None) ->
  exists s', locksteps s s' /\ nth_error (todo s') i = Some p /\ others s s' i /\ forall m, holder s' m = None.
Proof.
  intros s i p E F. destruct x as [| |n|].
  1,2: (cbn [code app] in E; destruct (do_lock _ _ _ _ E (F _)) as (s1 & S1 & E1 & O1 & H1);
    destruct (do_unlock _ _ _ _ E1) as (s2 & S2 & E2 & O2 & H2);
    exists s2; split; [exact (lss_step _ _ _ (locksteps_one _ _ S1) S2)|]; split; [exact E2|]; split; [eauto using others_trans|];
    intro m; rewrite H2, H1; destruct m; cbn; auto).
  - change (code (SML n) ++ p) with (Lock MapMutex :: (queries (S n) ++ [Unlock MapMutex]) ++ p) in E.
    rewrite <- app_assoc in E. cbn [app] in E.
    destruct (do_lock _ _ _ _ E (F _)) as (s1 & S1 & E1 & O1 & H1).
    destruct (run_queries (S n) s1 i _ E1) as (s2 & S2 & E2 & O2 & H2); [rewrite H1; apply F|].
    destruct (do_unlock _ _ _ _ E2) as (s3 & S3 & E3 & O3 & H3).
    exists s3. split; [exact (lss_step _ _ _ (locksteps_trans _ _ _ (locksteps_one _ _ S1) S2) S3)|].
    split; [exact E3|]. split; [eauto using others_trans|].
    intro m. rewrite H3, H2, H1. destruct m; cbn; auto.
  - cbn [code app] in E. destruct (do_lock _ _ _ _ E (F _)) as (s1 & S1 & E1 & O1 & H1).
    destruct (do_lock _ _ _ _ E1) as (s2 & S2 & E2 & O2 & H2); [rewrite H1; cbn; apply F|].
    destruct (do_unlock _ _ _ _ E2) as (s3 & S3 & E3 & O3 & H3).
    destruct (do_unlock _ _ _ _ E3) as (s4 & S4 & E4 & O4 & H4).
    exists s4. split; [exact (lss_step _ _ _ (lss_step _ _ _ (lss_step _ _ _ (locksteps_one _ _ S1) S2) S3) S4)|].
    split; [exact E4|]. split; [eauto using others_trans|].
    intro m. rewrite H4, H3, H2, H1. destruct m; cbn; auto.
Qed.
Lemma run_secs xs : forall s i p, nth_error (todo s) i = Some (codes xs ++ p) -> (forall m, holder s m = None) ->
  exists s', locksteps s s' /\ nth_error (todo s') i = Some p /\ others s s' i /\ forall m, holder s' m = None.
Proof.
  induction xs as [|x xs IH]; intros s i p E F.
  - exists s. split; [constructor|]. split; [exact E|]. split; [intros k _; reflexivity|exact F].
  - change (codes (x :: xs)) with (code x ++ codes xs) in E. rewrite <- app_assoc in E.
    destruct (run_sec x s i _ E F) as (s1 & S1 & E1 & O1 & F1).
    destruct (IH s1 i p E1 F1) as (s2 & S2 & E2 & O2 & F2).
    exists s2. split; [eauto using locksteps_trans|]. split; [exact E2|]. split; [eauto using others_trans|exact F2].
Qed.

Lemma prog_split l c : In c l -> exists l1 l2, codes (prog l) = codes l1 ++ codes (secs c) ++ codes l2.
Proof.
  intro H. apply in_split in H as (a & b & ->). exists (prog a), (prog b). unfold prog. rewrite map_app, concat_app. cbn.
  now rewrite !codes_app.
Qed.

Lemma deadlock_occurs cs i j ci cj : i <> j -> nth_error cs i = Some ci -> nth_error cs j = Some cj ->
  (exists b, In b ci /\ builds b) -> (exists c, In c cj /\ changes c) -> deadlocks cs.
Proof.
  intros N Ei Ej (b & Hi & Hb) (c & Hc & Hch). destruct b as [[n|]| | | |?|?]; try contradiction.
  destruct (prog_split ci _ Hi) as (a1 & a2 & Ea). destruct (prog_split cj _ Hc) as (b1 & b2 & Eb).
  assert (Es : codes (secs c) = code SLM) by (destruct c as [[?|]| | | |?|?]; try contradiction; reflexivity).
  rewrite Es in Eb. assert (Es' : codes (secs (CGetValue (Some n))) = code (SML n)) by apply app_nil_r. rewrite Es' in Ea.
  set (s0 := goroutines cs).
  assert (E0 : nth_error (todo s0) i = Some (codes a1 ++ code (SML n) ++ codes a2)) by (cbn; rewrite nth_error_map, Ei; cbn; now rewrite prog_codes, Ea).
  assert (E0' : nth_error (todo s0) j = Some (codes b1 ++ code SLM ++ codes b2)) by (cbn; rewrite nth_error_map, Ej; cbn; now rewrite prog_codes, Eb).
  destruct (run_secs a1 s0 i _ E0) as (s1 & S1 & E1 & O1 & F1); [reflexivity|].
  destruct (run_secs b1 s1 j (code SLM ++ codes b2)) as (s2 & S2 & E2 & O2 & F2); [rewrite (O1 j) by congruence; exact E0'|exact F1|].
  rewrite <- (O2 i) in E1 by congruence. cbn [code app queries] in E1, E2.
  destruct (do_lock s2 i _ _ E1 (F2 _)) as (s3 & S3 & E3 & O3 & H3).
  rewrite <- (O3 j) in E2 by congruence.
  destruct (do_lock s3 j _ _ E2) as (s4 & S4 & E4 & O4 & H4); [rewrite H3; cbn; apply F2|].
  rewrite <- (O4 i) in E3 by congruence.
  assert (R : locksteps s0 s4) by exact (lss_step _ _ _ (lss_step _ _ _ (locksteps_trans _ _ _ S1 S2) S3) S4).
  assert (HM : holder s4 MapMutex = Some i) by (rewrite H4, H3; reflexivity).
  assert (HL : holder s4 ListMutex = Some j) by (rewrite H4; reflexivity).
  exists s4. split; [exact R|]. split.
  - intros s' St. destruct (linv_reach cs s4 R) as (Hl & _ & Hp).
    inversion St as [? k m p E F|? k m p E]; subst; [destruct m; congruence|].
    destruct (nth_len _ _ _ _ Hl E) as [ck Eck]. pose proof (Hp k ck _ Eck E) as Ph.
    apply phase_head_unlock in Ph as [P1 P2].
    destruct m.
    + destruct (P1 eq_refl) as [Q _]. apply has_true in Q. assert (k = i) by congruence. subst k. rewrite E3 in E. discriminate.
    + destruct (P2 eq_refl) as [Q _]. apply has_true in Q. assert (k = j) by congruence. subst k. rewrite E4 in E. discriminate.
  - intro Hf. apply nth_error_In in E3. apply Hf in E3. discriminate.
Qed.
