(** Proofs about the loaded flag. *)
From Verif Require Import Base LoadedModel LoadedSpec.

Lemma replay_snoc l o n b : replay b l = Some o -> o <> n -> replay b (l ++ [(o, n)]) = Some n.
Proof.
  revert b. induction l as [|[x y] l IH]; intros b; cbn.
  - intros [= ->] Ne. destruct o, n; cbn; congruence.
  - destruct (Bool.eqb x b && negb (Bool.eqb x y)); [apply IH|discriminate].
Qed.
Definition follows (s : rstate) : Prop := replay false (told s) = Some (flag s).
Lemma follows_set b s : follows s -> follows (setLoaded b s).
Proof.
  unfold follows, setLoaded. intro F. destruct (Bool.eqb (flag s) b) eqn:E; [exact F|]. cbn. apply replay_snoc; [exact F|].
  intros <-. now rewrite Bool.eqb_reflx in E.
Qed.
Lemma fold_follows {B} (p : B -> bool) b l : forall s, follows s -> follows (fold_left (fun s j => if p j then setLoaded b s else s) l s).
Proof. induction l as [|j l IH]; intros s F; cbn; [exact F|]. apply IH. destruct (p j); [now apply follows_set|exact F]. Qed.
Lemma follows_dstep s o s' : follows s -> dstep s o = Some s' -> follows s'.
Proof.
  intros F. destruct o as [|[h i n|h i n|h]]; cbn.
  - intros [= <-]. unfold getContents. destruct (cur s); exact F.
  - destruct (nth_error (sizes s) h) as [z|]; cbn; [|discriminate]. destruct (i <=? z)%nat; [|discriminate]. intros [= <-].
    match goal with |- follows (fold_left (fun s j => if @?p j then _ else _) _ _) => apply (fold_follows p) end. exact F.
  - destruct (nth_error (sizes s) h) as [z|]; cbn; [|discriminate]. destruct (i + n <=? z)%nat; [|discriminate]. intros [= <-].
    match goal with |- follows (fold_left (fun s j => if @?p j then _ else _) _ _) => apply (fold_follows p) end. exact F.
  - destruct (nth_error (sizes s) h) as [z|]; cbn; [|discriminate]. intros [= <-]. first [apply follows_set; exact F|exact F].
Qed.
(** additions while the flag is set say nothing *)
Lemma fold_quiet {B} (p : B -> bool) l : forall s, flag s = true ->
  fold_left (fun s j => if p j then setLoaded true s else s) l s = s.
Proof.
  induction l as [|j l IH]; intros s F; cbn; [reflexivity|]. assert (E : (if p j then setLoaded true s else s) = s).
  { destruct (p j); [|reflexivity]. unfold setLoaded. now rewrite F. }
  rewrite E. now apply IH.
Qed.
Lemma drun_adds l : forall s s', Forall adds l -> flag s = true -> drun s l = Some s' -> flag s' = true /\ told s' = told s.
Proof.
  induction l as [|o l IH]; intros s s' A F; cbn; [intros [= <-]; auto|]. inversion A as [|? ? Ao Al]; subst.
  destruct (dstep s o) as [s1|] eqn:E; cbn; [|discriminate]. intro R. assert (K : flag s1 = true /\ told s1 = told s).
  { destruct o as [|[h i n|h i n|h]]; try contradiction; cbn in E.
    - injection E as <-. unfold getContents. destruct (cur s); auto.
    - destruct (nth_error (sizes s) h) as [z|]; cbn in E; [|discriminate]. destruct (i <=? z)%nat; [|discriminate]. injection E as <-.
      match goal with |- context [fold_left (fun s j => if @?p j then _ else _) _ _] => rewrite (fold_quiet p) by exact F end. auto. }
  destruct K as [F1 T1]. destruct (IH s1 s' Al F1 R) as [F2 T2]. split; [exact F2|congruence].
Qed.
Lemma follows_run l : forall s s', loads_add l -> follows s -> rrun s l = Some s' -> follows s'.
Proof.
  induction l as [|o l IH]; intros s s' A F; cbn; [intros [= <-]; exact F|].
  destruct (rstep s o) as [s1|] eqn:E; cbn; [|discriminate]. apply IH; [intros ops H; apply A; now right|].
  destruct o as [o|ops|]; cbn in E.
  - eapply follows_dstep; eassumption.
  - destruct (flag s) eqn:Fl; [injection E as <-; exact F|].
    destruct (drun (Rs true (cur s) (sizes s) (told s)) ops) as [s2|] eqn:D; cbn in E; [|discriminate]. injection E as <-.
    destruct (drun_adds ops (Rs true (cur s) (sizes s) (told s)) s2 (A ops (or_introl eq_refl)) eq_refl D) as [F2 T2]. unfold follows. cbn in *. rewrite T2, F2.
    apply replay_snoc; [|discriminate]. unfold follows in F. now rewrite Fl in F.
  - injection E as <-. destruct (flag s) eqn:Fl; [|exact F]. unfold follows in *. cbn. apply replay_snoc; [congruence|discriminate].
Qed.

(** the flag and the contents *)
Lemma length_put_size l i x : length (put_size l i x) = length l.
Proof. revert i. induction l as [|y l IH]; intros [|i]; cbn; congruence. Qed.
Lemma nth_put_size l i x : (i < length l)%nat -> nth i (put_size l i x) 0%nat = x.
Proof. revert i. induction l as [|y l IH]; intros [|i] L; cbn in *; try lia. apply IH. lia. Qed.
Definition agrees (s : rstate) : Prop := (flag s = true <-> (0 < size s)%nat) /\ forall c, cur s = Some c -> (c < length (sizes s))%nat.
Lemma set_flag b s : flag (setLoaded b s) = b /\ cur (setLoaded b s) = cur s /\ sizes (setLoaded b s) = sizes s.
Proof. unfold setLoaded. destruct (Bool.eqb (flag s) b) eqn:E; [|auto]. apply Bool.eqb_prop in E. auto. Qed.
Lemma fold_flag {B} (p : B -> bool) b l : forall s,
  let s' := fold_left (fun s j => if p j then setLoaded b s else s) l s in
  flag s' = (if existsb p l then b else flag s) /\ cur s' = cur s /\ sizes s' = sizes s.
Proof.
  induction l as [|j l IH]; intros s; cbn; [auto|]. specialize (IH (if p j then setLoaded b s else s)). cbn in IH. destruct IH as (A & C & D).
  rewrite A, C, D. destruct (set_flag b s) as (S1 & S2 & S3). destruct (p j); cbn; [|auto]. rewrite S1, S2, S3. destruct (existsb p l); auto.
Qed.
Lemma size_resize s h z s' : cur s = Some h -> (h < length (sizes s))%nat -> cur s' = cur (resize s h z) -> sizes s' = sizes (resize s h z) ->
  size s' = z.
Proof. intros C L E F. unfold size. rewrite E, F. cbn. rewrite C. now apply nth_put_size. Qed.
Lemma agrees_run l : forall s s', agrees s -> current s l -> rrun s l = Some s' -> agrees s'.
Proof.
  induction l as [|o l IH]; intros s s' A; cbn; [intros _ [= <-]; exact A|]. intros [C R].
  destruct (rstep s o) as [s1|] eqn:E; cbn; [|discriminate]. apply IH; [|exact R]. clear IH R. destruct A as [Af Ac].
  destruct o as [[|o]|ops|]; cbn in E; [| |contradiction|].
  - injection E as <-. unfold getContents. destruct (cur s) as [c|] eqn:Ec; [split; [exact Af|rewrite Ec; intros x [= <-]; now apply Ac]|].
    split; cbn.
    + rewrite Af. unfold size. rewrite Ec. cbn. rewrite app_nth2, Nat.sub_diag by lia. cbn. lia.
    + intros c [= <-]. rewrite app_length. cbn. lia.
  - pose proof (Ac _ C) as L. assert (Sz : size s = nth (list_of o) (sizes s) 0%nat) by (unfold size; now rewrite C).
    assert (Nt : nth_error (sizes s) (list_of o) = Some (size s)) by (rewrite Sz; now apply nth_error_nth').
    destruct o as [h i n|h i n|h]; cbn [lstep list_of] in *; rewrite Nt in E; cbn [obind] in E.
    + destruct (i <=? size s)%nat eqn:Le; [|discriminate]. apply Nat.leb_le in Le. injection E as <-.
      destruct (fold_flag (fun j => (j =? size s + n - 1)%nat) true (seq i n) (resize s h (size s + n))) as (F1 & F2 & F3).
      split; [|rewrite F2, F3; cbn; rewrite length_put_size; exact Ac]. rewrite F1, (size_resize _ _ _ _ C L F2 F3). cbn [resize flag]. destruct (existsb (fun j => (j =? size s + n - 1)%nat) (seq i n)) eqn:X.
      * apply existsb_exists in X as (j & Hj & _). apply in_seq in Hj. split; [lia|reflexivity].
      * rewrite Af. split; [lia|]. intro P. destruct (Nat.eq_dec (size s) 0) as [Z|Z]; [|lia]. exfalso.
        assert (Y : existsb (fun j => (j =? size s + n - 1)%nat) (seq i n) = true); [|congruence].
        apply existsb_exists. exists (n - 1)%nat. split; [apply in_seq; lia|apply Nat.eqb_eq; lia].
    + destruct (i + n <=? size s)%nat eqn:Le; [|discriminate]. apply Nat.leb_le in Le. injection E as <-.
      destruct (fold_flag (fun _ : nat => (size s - n =? 0)%nat) false (seq i n) (resize s h (size s - n))) as (F1 & F2 & F3).
      split; [|rewrite F2, F3; cbn; rewrite length_put_size; exact Ac]. rewrite F1, (size_resize _ _ _ _ C L F2 F3). cbn [resize flag]. destruct (existsb (fun _ : nat => (size s - n =? 0)%nat) (seq i n)) eqn:X.
      * apply existsb_exists in X as (j & _ & Hz). apply Nat.eqb_eq in Hz. split; [discriminate|lia].
      * rewrite Af. split; [|lia]. intro P. destruct (Nat.eq_dec n 0) as [Z|Z]; [lia|]. destruct (Nat.eq_dec (size s - n) 0) as [Z'|Z']; [|lia].
        exfalso. assert (Y : existsb (fun _ : nat => (size s - n =? 0)%nat) (seq i n) = true); [|congruence].
        apply existsb_exists. exists i. split; [apply in_seq; lia|now apply Nat.eqb_eq].
    + injection E as <-. destruct (set_flag false (resize s h 0)) as (F1 & F2 & F3). split; [|rewrite F2, F3; cbn; rewrite length_put_size; exact Ac].
      rewrite F1. unfold size. rewrite F2, F3. cbn [resize cur sizes]. rewrite C, nth_put_size by exact L. split; [discriminate|lia].
  - injection E as <-. destruct (flag s) eqn:Fl; [|split; [rewrite Fl; exact Af|exact Ac]]. split; cbn; [split; [discriminate|unfold size; cbn; lia]|discriminate].
Qed.
