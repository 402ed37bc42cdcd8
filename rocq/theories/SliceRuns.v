(** Programs of the examples, run by the kernel. *)
From Verif Require Import Base ListModel ListSpec SliceModel SliceSpec SliceRun.

Section Runs.
  Context {A : Type}.
  Definition disjointb (s t : slice) : bool :=
    negb (Nat.eqb (arr s) (arr t)) || (off s + cap s <=? off t)%nat || (off t + cap t <=? off s)%nat.
  Lemma disjointb_ok s t : disjointb s t = true -> disjoint s t.
  Proof. unfold disjointb, disjoint. destruct (Nat.eqb_spec (arr s) (arr t)), (Nat.leb_spec (off s + cap s) (off t)), (Nat.leb_spec (off t + cap t) (off s)); cbn; try discriminate; auto. Qed.
  Definition fairb (n : nat) (w : world A) (o : wop A) : bool :=
    match o with
    | NewFrom h _ v => (h <? n)%nat && forallb (fun h' => Nat.eqb h' h || match lists w h' with Some (s, _) => disjointb (vars w v) s | None => true end) (seq 0 n)
    | Call h o => (h <? n)%nat && forallb (fun c => match lists w c with Some _ => true | None => false end) (names o)
    | New h _ => (h <? n)%nat
    | _ => true
    end.
  Definition bounded (n : nat) (w : world A) : Prop := forall h, (n <= h)%nat -> lists w h = None.
  Lemma fairb_ok n w o : bounded n w -> fairb n w o = true -> fair w o.
  Proof.
    intros Hb. destruct o as [h u|h u v|v l k|v h|h o]; cbn; try (intros _; exact Logic.I); intro Ha; apply andb_prop in Ha; destruct Ha as [Hn Ha];
      rewrite forallb_forall in Ha.
    - intros h' s x N E. assert (Hh : (h' < n)%nat). { destruct (Nat.lt_ge_cases h' n); [assumption|]. rewrite (Hb h') in E by assumption. discriminate. }
      specialize (Ha h'). rewrite in_seq, E in Ha. destruct (Nat.eqb_spec h' h); [contradiction|]. apply disjointb_ok, Ha. lia.
    - intros c Hc. specialize (Ha c Hc). destruct (lists w c); congruence.
  Qed.
  Context (eqb : A -> A -> bool) (nilv : A) (grow : nat -> nat -> nat).
  Lemma bounded_step n w o w' r : bounded n w -> fairb n w o = true -> wstep eqb nilv grow w o = Some (w', r) -> bounded n w'.
  Proof.
    intros Hb Hf Ew h Hh.
    assert (Hset : forall k x, (k < n)%nat -> setAt (lists w) k x h = None) by (intros k x Hk; rewrite setAt_ne by lia; auto).
    destruct o as [k u|k u v|v l m|v k|k o]; cbn in Ew, Hf.
    - inversion Ew; subst. cbn. apply Hset. now apply Nat.ltb_lt.
    - inversion Ew; subst. cbn. apply Hset. apply andb_prop in Hf. now apply Nat.ltb_lt.
    - inversion Ew; subst. cbn. auto.
    - destruct (lists w k) as [[s u]|]; [|discriminate]. inversion Ew; subst. cbn. auto.
    - destruct (lists w k) as [[s u]|]; [|discriminate]. cbn in Ew. destruct (lookup (argument_of w k) o); [|discriminate]. cbn in Ew.
      destruct (hstep eqb nilv grow u (memory w) s h0) as [[H s'] x|]; [|discriminate]. inversion Ew; subst. cbn. apply Hset. apply andb_prop in Hf. now apply Nat.ltb_lt.
  Qed.
  Fixpoint runB (n : nat) (w : world A) (ops : list (wop A)) : option (world A) :=
    match ops with
    | [] => Some w
    | o :: ops' => if fairb n w o then let? (w', _) := wstep eqb nilv grow w o in runB n w' ops' else None
    end.
  Lemma runB_ok n ops : forall w w', bounded n w -> reachW eqb nilv grow w -> runB n w ops = Some w' ->
    reachW eqb nilv grow w' /\ runW eqb nilv grow w ops = Some w' /\ bounded n w'.
  Proof.
    induction ops as [|o ops IH]; intros w w' Hb Hr E; cbn in *; [inversion E; now subst|].
    destruct (fairb n w o) eqn:Ef; [|discriminate]. destruct (wstep eqb nilv grow w o) as [[w1 r]|] eqn:Ew; [|discriminate]. cbn in *.
    apply IH; auto; [eapply bounded_step; eassumption|]. eapply r_step; [exact Hr|eapply fairb_ok; eassumption|exact Ew].
  Qed.
  Lemma start_bounded n : bounded n (@start A).
  Proof. intros h _. reflexivity. Qed.

  (** undisturbed histories *)
  Definition quietb (n v h : nat) (w : world A) (o : wop A) : bool :=
    fairb n w o && match o with
    | Call h' o => negb (Nat.eqb h' h) || appends o
    | NewFrom _ _ v' => disjointb (vars w v) (vars w v')
    | Make v' _ _ | Take v' _ => negb (Nat.eqb v' v)
    | New _ _ => true
    end.
  Fixpoint runQ (n v h : nat) (w : world A) (ops : list (wop A)) : option (world A) :=
    match ops with
    | [] => Some w
    | o :: ops' => if quietb n v h w o then let? (w', _) := wstep eqb nilv grow w o in runQ n v h w' ops' else None
    end.
  Lemma runQ_ok n v h ops : forall w w', bounded n w -> runQ n v h w ops = Some w' -> quietly eqb nilv grow v h w w'.
  Proof.
    induction ops as [|o ops IH]; intros w w' Hb E; cbn in *; [inversion E; subst; apply q_refl|].
    destruct (quietb n v h w o) eqn:Eq; [|discriminate]. destruct (wstep eqb nilv grow w o) as [[w1 r]|] eqn:Ew; [|discriminate]. cbn in *.
    apply andb_prop in Eq. destruct Eq as [Ef Eq]. eapply q_step; [eapply fairb_ok; eassumption| | |exact Ew|apply IH; [eapply bounded_step; eassumption|exact E]].
    - destruct o as [k u|k u v'|v' l m|v' k|k o']; cbn; try tauto.
      + intro N. apply N, disjointb_ok, Eq.
      + intros [-> Ea]. rewrite Nat.eqb_refl, Ea in Eq. discriminate.
    - destruct o as [k u|k u v'|v' l m|v' k|k o']; cbn; try tauto; intros ->; rewrite Nat.eqb_refl in Eq; discriminate.
  Qed.
End Runs.

Lemma returned_slice_changes : forall grow : nat -> nat -> nat,
    let before := [Make 0 [1; 2; 3] 0; NewFrom 0 false 0; Take 1 0]%nat in
    (exists w w', runW Nat.eqb 0%nat grow start before = Some w /\ reachW Nat.eqb 0%nat grow w
       /\ runW Nat.eqb 0%nat grow w [Call 0 (HSet 0 9)]%nat = Some w'
       /\ valueOf w 1 = [1; 2; 3]%nat /\ valueOf w' 1 = [9; 2; 3]%nat)
    /\ (exists w w', runW Nat.eqb 0%nat grow start before = Some w /\ reachW Nat.eqb 0%nat grow w
       /\ runW Nat.eqb 0%nat grow w [Call 0 (HRemoveAt 0)] = Some w'
       /\ valueOf w 1 = [1; 2; 3]%nat /\ valueOf w' 1 = [2; 3; 0]%nat).
Proof.
  intros grow before.
  assert (G : match runB Nat.eqb 0%nat grow 9 start before with
    | Some w => valueOf w 1 = [1; 2; 3]%nat
        /\ match runB Nat.eqb 0%nat grow 9 w [Call 0 (HSet 0 9)]%nat with Some w' => valueOf w' 1 = [9; 2; 3]%nat | None => False end
        /\ match runB Nat.eqb 0%nat grow 9 w [Call 0 (HRemoveAt 0)] with Some w' => valueOf w' 1 = [2; 3; 0]%nat | None => False end
    | None => False end) by (vm_compute; auto).
  destruct (runB Nat.eqb 0%nat grow 9 start before) as [w|] eqn:E; [|contradiction]. destruct G as (E1 & G1 & G2).
  destruct (runB_ok _ _ _ _ _ _ _ (start_bounded 9) (r_start _ _ _) E) as (Hr & Ew & Hb).
  destruct (runB Nat.eqb 0%nat grow 9 w [Call 0 (HSet 0 9)]%nat) as [w1|] eqn:F1; [|contradiction].
  destruct (runB Nat.eqb 0%nat grow 9 w [Call 0 (HRemoveAt 0)]) as [w2|] eqn:F2; [|contradiction].
  destruct (runB_ok _ _ _ _ _ _ _ Hb Hr F1) as (_ & X1 & _). destruct (runB_ok _ _ _ _ _ _ _ Hb Hr F2) as (_ & X2 & _).
  split; [exists w, w1|exists w, w2]; auto 10.
Qed.
Lemma other_list_writes : forall grow : nat -> nat -> nat,
    exists w w',
      runW Nat.eqb 0%nat grow start
        [Make 0 [1; 2; 3] 0; NewFrom 0 false 0; Take 1 0; Call 0 (HRemoveAt 2); Make 2 [7] 0; NewFrom 5 false 2]%nat = Some w
      /\ reachW Nat.eqb 0%nat grow w
      /\ runW Nat.eqb 0%nat grow w [Call 5 (HInsertAll 0 0)]%nat = Some w'
      /\ contentsOf w' 0 = contentsOf w 0
      /\ valueOf w 1 = [1; 2; 0]%nat /\ valueOf w' 1 = [1; 2; 7]%nat.
Proof.
  intros grow.
  set (ops := [Make 0 [1; 2; 3] 0; NewFrom 0 false 0; Take 1 0; Call 0 (HRemoveAt 2); Make 2 [7] 0; NewFrom 5 false 2]%nat).
  assert (G : match runB Nat.eqb 0%nat grow 9 start ops with
    | Some w => match runB Nat.eqb 0%nat grow 9 w [Call 5 (HInsertAll 0 0)]%nat with
        | Some w' => contentsOf w' 0 = contentsOf w 0 /\ valueOf w 1 = [1; 2; 0]%nat /\ valueOf w' 1 = [1; 2; 7]%nat
        | None => False end
    | None => False end) by (vm_compute; auto).
  destruct (runB Nat.eqb 0%nat grow 9 start ops) as [w|] eqn:E; [|contradiction].
  destruct (runB_ok _ _ _ _ _ _ _ (start_bounded 9) (r_start _ _ _) E) as (Hr & Ew & Hb).
  destruct (runB Nat.eqb 0%nat grow 9 w _) as [w1|] eqn:F1; [|contradiction]. destruct (runB_ok _ _ _ _ _ _ _ Hb Hr F1) as (_ & X1 & _).
  exists w, w1. tauto.
Qed.
Lemma lists_of_one_slice : forall grow : nat -> nat -> nat,
    let program spare := [Make 0 [1] spare; NewFrom 0 false 0; NewFrom 5 false 0; Call 0 (HAdd 2); Call 5 (HAdd 3)]%nat in
    (exists w, runW Nat.eqb 0%nat grow start (program 1%nat) = Some w
       /\ contentsOf w 0 = Some [1; 3]%nat /\ contentsOf w 5 = Some [1; 3]%nat)
    /\ (exists w, runW Nat.eqb 0%nat grow start (program 0%nat) = Some w
       /\ contentsOf w 0 = Some [1; 2]%nat /\ contentsOf w 5 = Some [1; 3]%nat).
Proof.
  intros grow program.
  assert (G : forall n l, match runW Nat.eqb 0%nat grow start (program n) with
    | Some w => contentsOf w 0 = Some l /\ contentsOf w 5 = Some [1; 3]%nat | None => False end ->
    exists w, runW Nat.eqb 0%nat grow start (program n) = Some w /\ contentsOf w 0 = Some l /\ contentsOf w 5 = Some [1; 3]%nat).
  { intros n l. destruct (runW Nat.eqb 0%nat grow start (program n)) as [w|]; [eauto|contradiction]. }
  split; apply G; vm_compute; auto.
Qed.

Lemma sample_history :
  exists w, runW Nat.eqb 0%nat (fun c n => (2 * c)%nat) start
    [Make 0 [4; 5] 2; NewFrom 0 false 0; New 1 true; New 2 false; Call 1 (HAddAll 0); Call 1 (HAdd 4); Call 2 (HInsertAll 0 0);
     Call 0 (HInsertAll 1 2); Call 2 (HRemoveAll 1); Call 0 (HMove 3 0)]%nat = Some w
    /\ reachW Nat.eqb 0%nat (fun c n => (2 * c)%nat) w
    /\ contentsOf w 0 = Some [5; 4; 4; 5]%nat /\ contentsOf w 1 = Some [4; 5]%nat /\ contentsOf w 2 = Some []
    /\ fair w (Call 0 (HAddAll 1%nat)) /\ (uniqueOf w 1 = true /\ op_ok Nat.eqb [4; 5]%nat (plain w 1 (HAddAll 0%nat))).
Proof.
  set (g := fun c n => (2 * c)%nat).
  set (ops := [Make 0 [4; 5] 2; NewFrom 0 false 0; New 1 true; New 2 false; Call 1 (HAddAll 0); Call 1 (HAdd 4); Call 2 (HInsertAll 0 0);
     Call 0 (HInsertAll 1 2); Call 2 (HRemoveAll 1); Call 0 (HMove 3 0)]%nat).
  assert (G : match runB Nat.eqb 0%nat g 9 start ops with
    | Some w => contentsOf w 0 = Some [5; 4; 4; 5]%nat /\ contentsOf w 1 = Some [4; 5]%nat /\ contentsOf w 2 = Some []
      /\ fairb 9 w (Call 0 (HAddAll 1%nat)) = true /\ uniqueOf w 1 = true
    | None => False end) by (vm_compute; auto).
  destruct (runB Nat.eqb 0%nat g 9 start ops) as [w|] eqn:E; [|contradiction].
  destruct (runB_ok _ _ _ _ _ _ _ (start_bounded 9) (r_start _ _ _) E) as (Hr & Ew & Hb). destruct G as (E0 & E1 & E2 & Ef & Eu).
  exists w. repeat (split; [assumption|]). split; [exact (fairb_ok 9%nat w _ Hb Ef)|]. split; [assumption|].
  unfold plain. cbn. rewrite E0. unfold bulk_ok. cbn. left. lia.
Qed.
Lemma sample_quiet :
  exists w w1 r w2, reachW Nat.eqb 0%nat (fun c n => (2 * c)%nat) w
    /\ wstep Nat.eqb 0%nat (fun c n => (2 * c)%nat) w (Take 1 0) = Some (w1, r)
    /\ quietly Nat.eqb 0%nat (fun c n => (2 * c)%nat) 1 0 w1 w2
    /\ contentsOf w 0 = Some [4; 5]%nat /\ contentsOf w2 0 = Some [8]%nat /\ contentsOf w2 1 = Some [4; 5; 6; 7]%nat.
Proof.
  set (g := fun c n => (2 * c)%nat). set (ops := [Make 0 [4; 5] 2; NewFrom 0 false 0; Make 2 [7] 0; NewFrom 1 false 2]%nat).
  set (quiet := [Call 0 (HAdd 6); Call 1 (HInsertAll 0 0); Call 0 HClear; Call 0 (HAdd 8)]%nat).
  assert (G : match runB Nat.eqb 0%nat g 9 start ops with
    | Some w => contentsOf w 0 = Some [4; 5]%nat /\
       match runB Nat.eqb 0%nat g 9 w [Take 1 0]%nat with
       | Some w1 => match runQ Nat.eqb 0%nat g 9 1 0 w1 quiet with
                    | Some w2 => contentsOf w2 0 = Some [8]%nat /\ contentsOf w2 1 = Some [4; 5; 6; 7]%nat | None => False end
       | None => False end
    | None => False end) by (vm_compute; auto).
  destruct (runB Nat.eqb 0%nat g 9 start ops) as [w|] eqn:E; [|contradiction]. destruct G as [E0 G].
  destruct (runB_ok _ _ _ _ _ _ _ (start_bounded 9) (r_start _ _ _) E) as (Hr & Ew & Hb).
  destruct (runB Nat.eqb 0%nat g 9 w [Take 1 0]%nat) as [w1|] eqn:E1; [|contradiction].
  destruct (runB_ok _ _ _ _ _ _ _ Hb Hr E1) as (Hr1 & Ew1 & Hb1).
  destruct (runQ Nat.eqb 0%nat g 9 1 0 w1 quiet) as [w2|] eqn:E2; [|contradiction]. destruct G as [E3 E4].
  assert (Et : exists r, wstep Nat.eqb 0%nat g w (Take 1 0)%nat = Some (w1, r)).
  { cbn [runW] in Ew1. destruct (wstep Nat.eqb 0%nat g w (Take 1 0)%nat) as [[x r]|]; [|discriminate]. cbn in Ew1. inversion Ew1. eauto. }
  destruct Et as [r Et]. exists w, w1, r, w2. split; [exact Hr|]. split; [exact Et|].
  split; [exact (runQ_ok _ _ _ _ _ _ _ _ _ Hb1 E2)|]. auto.
Qed.
