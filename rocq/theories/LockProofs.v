From Verif Require Import Base LockModel LockSpec.

(** ** Counting *)
Definition b2n (b : bool) : nat := if b then 1 else 0.
Fixpoint cnt (P : pc -> bool) (l : list pc) : nat := match l with [] => 0 | x :: r => b2n (P x) + cnt P r end.

Lemma upd_len l i x : length (upd l i x) = length l.
Proof. revert i; induction l; intros [|i]; cbn; auto. Qed.
Lemma nth_upd l : forall i j x y, nth_error l i = Some y ->
  nth_error (upd l i x) j = if Nat.eqb j i then Some x else nth_error l j.
Proof.
  induction l as [|z l IH]; intros [|i] [|j] x y H; cbn in *; try discriminate; try reflexivity. eapply IH; eauto.
Qed.
Lemma cnt_upd P l : forall i x y, nth_error l i = Some y -> (cnt P (upd l i x) + b2n (P y) = cnt P l + b2n (P x))%nat.
Proof.
  induction l as [|z l IH]; intros [|i] x y H; cbn in *; try discriminate.
  - injection H as ->. lia.
  - specialize (IH i x y H). lia.
Qed.
Lemma cnt_pos P l : forall i y, nth_error l i = Some y -> P y = true -> (1 <= cnt P l)%nat.
Proof.
  induction l as [|z l IH]; intros [|i] y H E; cbn in *; try discriminate.
  - injection H as ->. rewrite E. cbn. lia.
  - specialize (IH i y H E). lia.
Qed.
Lemma cnt_two P l : forall i j y z, nth_error l i = Some y -> nth_error l j = Some z -> P y = true -> P z = true -> i <> j ->
  (2 <= cnt P l)%nat.
Proof.
  induction l as [|a l IH]; intros [|i] [|j] y z Hi Hj Ey Ez Hn; cbn in *; try discriminate.
  - congruence.
  - injection Hi as ->. rewrite Ey. pose proof (cnt_pos P l j z Hj Ez). cbn. lia.
  - injection Hj as ->. rewrite Ez. pose proof (cnt_pos P l i y Hi Ey). cbn. lia.
  - assert (i <> j) by congruence. specialize (IH i j y z Hi Hj Ey Ez H). lia.
Qed.
Lemma cnt_witness P l : (1 <= cnt P l)%nat -> exists i y, nth_error l i = Some y /\ P y = true.
Proof.
  induction l as [|z l IH]; cbn; [lia|]. destruct (P z) eqn:E; cbn; intro H.
  - exists 0%nat, z. auto.
  - destruct (IH H) as (i & y & H1 & H2). exists (S i), y. auto.
Qed.

Definition uses (k : nat) (p : pc) : bool := match p with Wait k' _ | Crit k' _ => Nat.eqb k' k | _ => false end.
Definition holds (m : nat) (p : pc) : bool := match p with Crit _ m' | Unl m' => Nat.eqb m' m | _ => false end.

Lemma fset_same {T} (f : nat -> T) k v : fset f k v k = v.
Proof. unfold fset. now rewrite Nat.eqb_refl. Qed.
Lemma fset_other {T} (f : nat -> T) k v x : x <> k -> fset f k v x = f x.
Proof. unfold fset. intro. destruct (Nat.eqb_spec x k); congruence. Qed.

Record Inv (s : mgr) : Prop := {
  i_count : forall k, match locks s k with
                      | Some (_, rc) => rc = cnt (uses k) (pcs s) /\ (1 <= rc)%nat
                      | None => cnt (uses k) (pcs s) = 0%nat
                      end;
  i_wait : forall i k m, nth_error (pcs s) i = Some (Wait k m) -> exists rc, locks s k = Some (m, rc);
  i_crit : forall i k m, nth_error (pcs s) i = Some (Crit k m) -> exists rc, locks s k = Some (m, rc);
  i_held : forall m, cnt (holds m) (pcs s) = b2n (held s m);
  i_inj : forall k k' m rc rc', locks s k = Some (m, rc) -> locks s k' = Some (m, rc') -> k = k';
  i_pool : NoDup (pool s);
  i_disj : forall k m rc, locks s k = Some (m, rc) -> ~ In m (pool s);
  i_next1 : forall k m rc, locks s k = Some (m, rc) -> (m < next s)%nat;
  i_next2 : forall m, In m (pool s) -> (m < next s)%nat;
  i_next3 : forall m, held s m = true -> (m < next s)%nat }.

Lemma cnt_repeat P n : P Idle = false -> cnt P (repeat Idle n) = 0%nat.
Proof. intro E. induction n; cbn; [reflexivity|]. now rewrite E. Qed.

Lemma nth_repeat {A} (x y : A) n i : nth_error (repeat x n) i = Some y -> y = x.
Proof. intro H. apply nth_error_In in H. now apply repeat_spec in H. Qed.

Lemma inv_init n : Inv (newSqlEncoderLockManager n).
Proof.
  constructor; cbn; intros; try discriminate; try contradiction.
  - now apply cnt_repeat.
  - apply nth_repeat in H. discriminate.
  - apply nth_repeat in H. discriminate.
  - now apply cnt_repeat.
  - constructor.
Qed.

Lemma get_spec s m s1 : Inv s -> Get s m s1 ->
  locks s1 = locks s /\ held s1 = held s /\ pcs s1 = pcs s /\ NoDup (pool s1) /\ ~ In m (pool s1) /\
  (forall x, In x (pool s1) -> In x (pool s)) /\ (m < next s1)%nat /\ (next s <= next s1)%nat /\
  (forall k rc, locks s k <> Some (m, rc)).
Proof.
  intros I G. destruct G as [s m p1 p2 E|s]; cbn.
  - pose proof (i_pool _ I) as ND. rewrite E in ND. apply NoDup_remove in ND as [ND Hni].
    repeat split; auto.
    + intros x Hx. rewrite E. apply in_app_iff in Hx. apply in_app_iff. cbn. tauto.
    + apply (i_next2 _ I). rewrite E. apply in_app_iff. cbn. auto.
    + intros k rc K. apply (i_disj _ I _ _ _ K). rewrite E. apply in_app_iff. cbn. auto.
  - repeat split; auto.
    + apply (i_pool _ I).
    + intro H. apply (i_next2 _ I) in H. lia.
    + intros k rc K. apply (i_next1 _ I) in K. lia.
Qed.

Lemma uses_wait k k' m : uses k (Wait k' m) = Nat.eqb k' k. Proof. reflexivity. Qed.
Lemma uses_crit k k' m : uses k (Crit k' m) = Nat.eqb k' k. Proof. reflexivity. Qed.

Ltac fs k k' := destruct (Nat.eqb_spec k k'); [subst|]; [rewrite ?fset_same in *|rewrite ?fset_other in * by congruence].

Lemma inv_step s s' : Inv s -> step s s' -> Inv s'.
Proof.
  intros I St. destruct St as [s m p1 p2 E|s i k m s1 Hi Hk G|s i k m rc Hi Hk|s i k m Hi Hh|s i k m0 m rc Hi Hk Hrc|s i k m0 m rc Hi Hk Hrc|s i k m0 Hi Hk|s i m Hi Hh].
  - (* gc *)
    assert (Sub : forall x, In x (p1 ++ p2) -> In x (pool s)).
    { intros x Hx. rewrite E. apply in_app_iff in Hx. apply in_app_iff. cbn. tauto. }
    constructor; cbn; try apply I.
    + pose proof (i_pool _ I) as ND. rewrite E in ND. now apply NoDup_remove in ND as [ND _].
    + intros k m' rc K Hin. apply Sub in Hin. revert Hin. eapply i_disj; eauto.
    + intros m' Hin. apply (i_next2 _ I). auto.
  - (* acquire_new *)
    destruct (get_spec s m s1 I G) as (E1 & E2 & E3 & G1 & G2 & G3 & G4 & G5 & G6).
    rewrite E1, E2, E3.
    constructor; cbn [locks pool next held pcs].
    + intro x. pose proof (i_count _ I x) as C. pose proof (cnt_upd (uses x) (pcs s) i (Wait k m) Idle Hi) as U.
      cbn [uses] in U. fs x k.
      * rewrite Hk in C. rewrite Nat.eqb_refl in U. cbn in U. lia.
      * destruct (Nat.eqb_spec k x); [congruence|]. cbn in U. destruct (locks s x) as [[? ?]|]; lia.
    + intros j k' m' Hj. rewrite (nth_upd _ _ _ _ _ Hi) in Hj. destruct (Nat.eqb j i).
      * injection Hj as <- <-. rewrite fset_same. eauto.
      * destruct (i_wait _ I _ _ _ Hj) as [rc K]. fs k' k; [congruence|eauto].
    + intros j k' m' Hj. rewrite (nth_upd _ _ _ _ _ Hi) in Hj. destruct (Nat.eqb j i); [discriminate|].
      destruct (i_crit _ I _ _ _ Hj) as [rc K]. fs k' k; [congruence|eauto].
    + intro x. pose proof (cnt_upd (holds x) (pcs s) i (Wait k m) Idle Hi) as U. cbn [holds b2n] in U.
      rewrite <- (i_held _ I x). lia.
    + intros k1 k2 m' rc rc' K1 K2. fs k1 k; fs k2 k; auto.
      * injection K1 as <- <-. exfalso. eapply G6; eauto.
      * injection K2 as <- <-. exfalso. eapply G6; eauto.
      * eapply i_inj; eauto.
    + exact G1.
    + intros k' m' rc K. fs k' k.
      * injection K as <- <-. exact G2.
      * intro H. apply G3 in H. revert H. eapply i_disj; eauto.
    + intros k' m' rc K. fs k' k; [injection K as <- <-; lia|]. apply (i_next1 _ I) in K. lia.
    + intros m' H. apply G3, (i_next2 _ I) in H. lia.
    + intros m' H. apply (i_next3 _ I) in H. lia.
  - (* acquire_old *)
    constructor; cbn [locks pool next held pcs].
    + intro x. pose proof (i_count _ I x) as C. pose proof (cnt_upd (uses x) (pcs s) i (Wait k m) Idle Hi) as U.
      cbn [uses] in U. fs x k.
      * rewrite Hk in C. rewrite Nat.eqb_refl in U. cbn in U. lia.
      * destruct (Nat.eqb_spec k x); [congruence|]. cbn in U. destruct (locks s x) as [[? ?]|]; lia.
    + intros j k' m' Hj. rewrite (nth_upd _ _ _ _ _ Hi) in Hj. destruct (Nat.eqb j i).
      * injection Hj as <- <-. rewrite fset_same. eauto.
      * destruct (i_wait _ I _ _ _ Hj) as [rc' K]. fs k' k; [assert (m' = m) by congruence; subst; eauto|eauto].
    + intros j k' m' Hj. rewrite (nth_upd _ _ _ _ _ Hi) in Hj. destruct (Nat.eqb j i); [discriminate|].
      destruct (i_crit _ I _ _ _ Hj) as [rc' K]. fs k' k; [assert (m' = m) by congruence; subst; eauto|eauto].
    + intro x. pose proof (cnt_upd (holds x) (pcs s) i (Wait k m) Idle Hi) as U. cbn [holds b2n] in U.
      rewrite <- (i_held _ I x). lia.
    + intros k1 k2 m' r r' K1 K2. fs k1 k; fs k2 k; auto.
      * injection K1 as <- <-. eapply i_inj; eauto.
      * injection K2 as <- <-. eapply i_inj; eauto.
      * eapply i_inj; eauto.
    + apply I.
    + intros k' m' r K. fs k' k; [injection K as <- <-|]; eapply i_disj; eauto.
    + intros k' m' r K. fs k' k; [injection K as <- <-|]; eapply i_next1; eauto.
    + apply I.
    + apply I.
  - (* lock *)
    constructor; cbn [locks pool next held pcs].
    + intro x. pose proof (i_count _ I x) as C. pose proof (cnt_upd (uses x) (pcs s) i (Crit k m) _ Hi) as U.
      cbn [uses] in U. destruct (locks s x) as [[? ?]|]; lia.
    + intros j k' m' Hj. rewrite (nth_upd _ _ _ _ _ Hi) in Hj. destruct (Nat.eqb j i); [discriminate|]. eapply i_wait; eauto.
    + intros j k' m' Hj. rewrite (nth_upd _ _ _ _ _ Hi) in Hj. destruct (Nat.eqb j i).
      * injection Hj as <- <-. eapply i_wait; eauto.
      * eapply i_crit; eauto.
    + intro x. pose proof (cnt_upd (holds x) (pcs s) i (Crit k m) _ Hi) as U. cbn [holds b2n] in U.
      pose proof (i_held _ I x) as C. fs x m.
      * rewrite Hh in C. rewrite Nat.eqb_refl in U. cbn in *. lia.
      * destruct (Nat.eqb_spec m x); [congruence|]. cbn in U. lia.
    + apply I.
    + apply I.
    + apply I.
    + apply I.
    + apply I.
    + intros x H. fs x m; [|now apply (i_next3 _ I)]. destruct (i_wait _ I _ _ _ Hi) as [rc K]. eapply i_next1; eauto.
  - (* release_last *)
    assert (m0 = m) as ->. { destruct (i_crit _ I _ _ _ Hi) as [r K]. congruence. }
    constructor; cbn [locks pool next held pcs].
    + intro x. pose proof (i_count _ I x) as C. pose proof (cnt_upd (uses x) (pcs s) i (Unl m) _ Hi) as U.
      cbn [uses] in U. fs x k.
      * rewrite Hk in C. rewrite Nat.eqb_refl in U. cbn in U. lia.
      * destruct (Nat.eqb_spec k x); [congruence|]. cbn in U. destruct (locks s x) as [[? ?]|]; lia.
    + intros j k' m' Hj. rewrite (nth_upd _ _ _ _ _ Hi) in Hj. destruct (Nat.eqb_spec j i) as [|Hne]; [discriminate|].
      destruct (i_wait _ I _ _ _ Hj) as [r K]. fs k' k; [|eauto]. exfalso.
      pose proof (i_count _ I k) as C. rewrite Hk in C.
      pose proof (cnt_two (uses k) _ _ _ _ _ Hi Hj) as U. cbn [uses] in U. rewrite Nat.eqb_refl in U. specialize (U eq_refl eq_refl). lia.
    + intros j k' m' Hj. rewrite (nth_upd _ _ _ _ _ Hi) in Hj. destruct (Nat.eqb_spec j i) as [|Hne]; [discriminate|].
      destruct (i_crit _ I _ _ _ Hj) as [r K]. fs k' k; [|eauto]. exfalso.
      pose proof (i_count _ I k) as C. rewrite Hk in C.
      pose proof (cnt_two (uses k) _ _ _ _ _ Hi Hj) as U. cbn [uses] in U. rewrite Nat.eqb_refl in U. specialize (U eq_refl eq_refl). lia.
    + intro x. pose proof (cnt_upd (holds x) (pcs s) i (Unl m) _ Hi) as U. cbn [holds] in U. pose proof (i_held _ I x). lia.
    + intros k1 k2 m' r r' K1 K2. fs k1 k; [discriminate|]. fs k2 k; [discriminate|]. eapply i_inj; eauto.
    + constructor; [eapply i_disj; eauto|apply I].
    + intros k' m' r K. fs k' k; [discriminate|]. intros [<-|H].
      * apply n. eapply i_inj; eauto.
      * revert H. eapply i_disj; eauto.
    + intros k' m' r K. fs k' k; [discriminate|]. eapply i_next1; eauto.
    + intros x [<-|H]; [eapply i_next1; eauto|now apply (i_next2 _ I)].
    + apply I.
  - (* release *)
    assert (m0 = m) as ->. { destruct (i_crit _ I _ _ _ Hi) as [r K]. congruence. }
    constructor; cbn [locks pool next held pcs].
    + intro x. pose proof (i_count _ I x) as C. pose proof (cnt_upd (uses x) (pcs s) i (Unl m) _ Hi) as U.
      cbn [uses] in U. fs x k.
      * rewrite Hk in C. rewrite Nat.eqb_refl in U. cbn in U. lia.
      * destruct (Nat.eqb_spec k x); [congruence|]. cbn in U. destruct (locks s x) as [[? ?]|]; lia.
    + intros j k' m' Hj. rewrite (nth_upd _ _ _ _ _ Hi) in Hj. destruct (Nat.eqb_spec j i) as [|Hne]; [discriminate|].
      destruct (i_wait _ I _ _ _ Hj) as [r K]. fs k' k; [|eauto]. assert (m' = m) by congruence; subst; eauto.
    + intros j k' m' Hj. rewrite (nth_upd _ _ _ _ _ Hi) in Hj. destruct (Nat.eqb_spec j i) as [|Hne]; [discriminate|].
      destruct (i_crit _ I _ _ _ Hj) as [r K]. fs k' k; [|eauto]. assert (m' = m) by congruence; subst; eauto.
    + intro x. pose proof (cnt_upd (holds x) (pcs s) i (Unl m) _ Hi) as U. cbn [holds] in U. pose proof (i_held _ I x). lia.
    + intros k1 k2 m' r r' K1 K2. fs k1 k; fs k2 k; auto.
      * injection K1 as <- <-. eapply i_inj; eauto.
      * injection K2 as <- <-. eapply i_inj; eauto.
      * eapply i_inj; eauto.
    + apply I.
    + intros k' m' r K. fs k' k; [injection K as <- <-|]; eapply i_disj; eauto.
    + intros k' m' r K. fs k' k; [injection K as <- <-|]; eapply i_next1; eauto.
    + apply I.
    + apply I.
  - (* release_none: impossible *)
    destruct (i_crit _ I _ _ _ Hi) as [r K]. congruence.
  - (* unlock *)
    constructor; cbn [locks pool next held pcs]; try apply I.
    + intro x. pose proof (i_count _ I x) as C. pose proof (cnt_upd (uses x) (pcs s) i Idle _ Hi) as U.
      cbn [uses] in U. destruct (locks s x) as [[? ?]|]; lia.
    + intros j k' m' Hj. rewrite (nth_upd _ _ _ _ _ Hi) in Hj. destruct (Nat.eqb j i); [discriminate|]. eapply i_wait; eauto.
    + intros j k' m' Hj. rewrite (nth_upd _ _ _ _ _ Hi) in Hj. destruct (Nat.eqb j i); [discriminate|]. eapply i_crit; eauto.
    + intro x. pose proof (cnt_upd (holds x) (pcs s) i Idle _ Hi) as U. cbn [holds b2n] in U.
      pose proof (i_held _ I x) as C. fs x m.
      * rewrite Hh in C. rewrite Nat.eqb_refl in U. cbn in *. lia.
      * destruct (Nat.eqb_spec m x); [congruence|]. cbn in U. lia.
    + intros x H. fs x m; [discriminate|now apply (i_next3 _ I)].
Qed.

Lemma inv_reachable n s : reachable n s -> Inv s.
Proof. induction 1; [apply inv_init|eapply inv_step; eauto]. Qed.

Lemma lock_exclusion n s : reachable n s -> mutual_exclusion s.
Proof.
  intros R i j k [m Hi] [m' Hj]. apply inv_reachable in R as I.
  destruct (i_crit _ I _ _ _ Hi) as [r K], (i_crit _ I _ _ _ Hj) as [r' K']. assert (m' = m) by congruence. subst m'.
  destruct (Nat.eq_dec i j); [assumption|]. exfalso.
  pose proof (cnt_two (holds m) _ _ _ _ _ Hi Hj) as U. cbn [holds] in U. rewrite Nat.eqb_refl in U. specialize (U eq_refl eq_refl n0).
  rewrite (i_held _ I m) in U. destruct (held s m); cbn in U; lia.
Qed.

Lemma cnt_idle P l : P Idle = false -> (forall i x, nth_error l i = Some x -> x = Idle) -> cnt P l = 0%nat.
Proof.
  intros E. induction l as [|z l IH]; intros H; cbn; [reflexivity|].
  rewrite (H 0%nat z eq_refl), E, IH; [reflexivity|]. intros i x Hx. apply (H (S i) x Hx).
Qed.
Lemma no_entries n s : reachable n s -> all_idle s -> forall k, locks s k = None.
Proof.
  intros R A k. apply inv_reachable in R as I. pose proof (i_count _ I k) as C. destruct (locks s k) as [[m rc]|]; [|reflexivity].
  rewrite (cnt_idle _ _ eq_refl A) in C. lia.
Qed.
Lemma no_mutex_held n s : reachable n s -> all_idle s -> forall m, held s m = false.
Proof.
  intros R A m. apply inv_reachable in R as I. pose proof (i_held _ I m) as C. rewrite (cnt_idle _ _ eq_refl A) in C.
  destruct (held s m); [discriminate|reflexivity].
Qed.
Lemma no_fatal n s : reachable n s -> ~ unlock_fatal s.
Proof.
  intros R (i & m & Hi & Hh). apply inv_reachable in R as I. pose proof (i_held _ I m) as C. rewrite Hh in C.
  pose proof (cnt_pos (holds m) _ _ _ Hi) as U. cbn [holds] in U. rewrite Nat.eqb_refl in U. specialize (U eq_refl). cbn in C. lia.
Qed.
Lemma blocked_why n s i k m : reachable n s -> nth_error (pcs s) i = Some (Wait k m) ->
  (exists s', step s s' /\ nth_error (pcs s') i = Some (Crit k m)) \/
  (exists j, in_section s j k) \/
  (exists j m' s', nth_error (pcs s) j = Some (Unl m') /\ step s s' /\ nth_error (pcs s') j = Some Idle).
Proof.
  intros R Hi. apply inv_reachable in R as I. destruct (held s m) eqn:Hh.
  - right. pose proof (i_held _ I m) as C. rewrite Hh in C. cbn in C.
    destruct (cnt_witness (holds m) (pcs s)) as (j & y & Hj & Ey); [lia|].
    destruct y as [|k' m'|k' m'|m']; try discriminate; cbn in Ey; apply Nat.eqb_eq in Ey; subst m'.
    + left. exists j. destruct (i_crit _ I _ _ _ Hj) as [r K], (i_wait _ I _ _ _ Hi) as [r' K'].
      assert (k' = k) as -> by (eapply i_inj; eauto). exists m. exact Hj.
    + right. exists j, m. eexists. split; [exact Hj|]. split; [apply st_unlock with (i := j); eauto|].
      cbn [pcs]. rewrite (nth_upd _ _ _ _ _ Hj), Nat.eqb_refl. reflexivity.
  - left. eexists. split; [apply st_lock with (i := i); eauto|]. cbn [pcs]. rewrite (nth_upd _ _ _ _ _ Hi), Nat.eqb_refl. reflexivity.
Qed.
