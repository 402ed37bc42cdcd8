(** Proofs about the number of notifications about the loaded flag. *)
From Verif Require Import Base LoadedModel LoadedCountSpec.

Lemma ups_app l m : ups (l ++ m) = (ups l + ups m)%nat.
Proof. induction l as [|[[|] [|]] l IH]; cbn; lia. Qed.
Lemma downs_app l m : downs (l ++ m) = (downs l + downs m)%nat.
Proof. induction l as [|[[|] [|]] l IH]; cbn; lia. Qed.
(** [k]: notifications of a load not sent yet *)
Definition counts (k : nat) (s : rstate) : Prop :=
  (ups (told s) + k = downs (told s) + (if flag s then 1 else 0))%nat /\ Forall change (told s).
Lemma counts_set k b s : counts k s -> counts k (setLoaded b s).
Proof.
  unfold counts, setLoaded. intros [C F]. destruct (flag s) eqn:Fl, b; cbn; rewrite ?Fl; auto; rewrite ups_app, downs_app; cbn;
    (split; [lia|apply Forall_app; split; [exact F|constructor; [discriminate|constructor]]]).
Qed.
Lemma counts_fold {B} k (p : B -> bool) b l : forall s, counts k s -> counts k (fold_left (fun s j => if p j then setLoaded b s else s) l s).
Proof. induction l as [|j l IH]; intros s F; cbn; [exact F|]. apply IH. destruct (p j); [now apply counts_set|exact F]. Qed.
Lemma counts_dstep k s o s' : counts k s -> dstep s o = Some s' -> counts k s'.
Proof.
  intros F. destruct o as [|[h i n|h i n|h]]; cbn.
  - intros [= <-]. unfold getContents. destruct (cur s); exact F.
  - destruct (nth_error (sizes s) h) as [z|]; cbn; [|discriminate]. destruct (i <=? z)%nat; [|discriminate]. intros [= <-].
    match goal with |- counts _ (fold_left (fun s j => if @?p j then _ else _) _ _) => apply (counts_fold k p) end. exact F.
  - destruct (nth_error (sizes s) h) as [z|]; cbn; [|discriminate]. destruct (i + n <=? z)%nat; [|discriminate]. intros [= <-].
    match goal with |- counts _ (fold_left (fun s j => if @?p j then _ else _) _ _) => apply (counts_fold k p) end. exact F.
  - destruct (nth_error (sizes s) h) as [z|]; cbn; [|discriminate]. intros [= <-]. first [apply counts_set; exact F|exact F].
Qed.
Lemma counts_drun k l : forall s s', counts k s -> drun s l = Some s' -> counts k s'.
Proof.
  induction l as [|o l IH]; intros s s' C; cbn; [intros [= <-]; exact C|]. destruct (dstep s o) as [s1|] eqn:E; cbn; [|discriminate].
  apply IH. eapply counts_dstep; eassumption.
Qed.
Lemma counts_snoc_up s : counts 1 s -> counts 0 (Rs (flag s) (cur s) (sizes s) (told s ++ [(false, true)])).
Proof.
  intros [C F]. split; cbn; [rewrite ups_app, downs_app; cbn; lia|]. apply Forall_app. split; [exact F|]. constructor; [discriminate|constructor].
Qed.
Lemma counts_rrun l : forall s s', counts 0 s -> rrun s l = Some s' -> counts 0 s'.
Proof.
  induction l as [|o l IH]; intros s s' C; cbn; [intros [= <-]; exact C|]. destruct (rstep s o) as [s1|] eqn:E; cbn; [|discriminate].
  apply IH. destruct o as [o|ops|]; cbn in E.
  - eapply counts_dstep; eassumption.
  - destruct (flag s) eqn:Fl; [injection E as <-; exact C|].
    destruct (drun (Rs true (cur s) (sizes s) (told s)) ops) as [s2|] eqn:D; cbn in E; [|discriminate]. injection E as <-.
    apply counts_snoc_up. refine (counts_drun 1 ops _ s2 _ D). destruct C as [C F]. rewrite Fl in C. split; cbn; [lia|exact F].
  - injection E as <-. destruct (flag s) eqn:Fl; [|exact C]. destruct C as [C F]. rewrite Fl in C. split; cbn; [rewrite ups_app, downs_app; cbn; lia|].
    apply Forall_app. split; [exact F|]. constructor; [discriminate|constructor].
Qed.
