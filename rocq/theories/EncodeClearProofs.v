(** Progress of goroutines that encode objects while ids change. *)
From Verif Require Import Base EncodeModel EncodeSpec EncodeProofs ClassDataProofs EncodeClearModel.

Section EncodeClear.
  Context (kids : nat -> list nat).

  (** each call is for a content of the caller's object *)
  Fixpoint kchain (above : option nat) (st : list frame) : Prop :=
    match st with
    | [] => True
    | f :: r => match above with None => True | Some s => In s (kids (fobj f)) end
                /\ match f with Kids o ks => incl ks (kids o) | _ => True end /\ kchain (Some (fobj f)) r
    end.
  Record KI (g : nat) (sh : shared) (st : list frame) : Prop := {
    ki_shape : Forall isKids (tl st);
    ki_nodup : NoDup (held st);
    ki_own : forall o, In o (held st) <-> owner sh o = Some g;
    ki_chain : kchain None st }.
  Record EI (s : state) : Prop := {
    ei_range : forall o g, owner (fst s) o = Some g -> (g < length (snd s))%nat;
    ei_threads : forall g t, nth_error (snd s) g = Some t -> KI g (fst s) (stack t) }.

  Lemma KI_other g sh sh' st : (forall o, owner sh' o = Some g <-> owner sh o = Some g) -> KI g sh st -> KI g sh' st.
  Proof. intros O [S_ N Ow Ch]. constructor; try assumption. intro o. now rewrite Ow, O. Qed.
  Lemma KI_leave g sh o b st js os :
    Forall isKids st -> NoDup (held st) -> (forall x, In x (held st) <-> owner sh x = Some g) -> kchain (Some o) st ->
    KI g sh (stack (leave o b st js os)).
  Proof.
    intros S_ N Ow Ch. rewrite leave_stack. destruct st as [|f st]; [constructor; cbn; auto; try constructor|].
    inversion S_ as [|? ? Hf Hs]; subst. destruct f as [?|?|?|?|p ks|?]; try contradiction.
    assert (E : held ((if b then Kids p ks else failed (Kids p ks)) :: st) = held (Kids p ks :: st)) by (destruct b; reflexivity).
    constructor; rewrite ?E; try assumption. destruct Ch as (_ & K & R). destruct b; cbn; auto.
  Qed.
  Ltac inv_ki H := destruct H as [Hsh Hnd How Hch]; cbn [stack tl held flat_map hold app] in *.
  Ltac released := let x := fresh "x" in let Ne := fresh "Ne" in
    intro x; cbn [unlock owner]; match goal with |- _ <-> set _ ?c _ _ = _ => destruct (Nat.eq_dec x c) as [->|Ne];
      [rewrite set_eq; split; [contradiction|discriminate]|rewrite set_ne by exact Ne] end;
    match goal with How : forall c, _ <-> _ |- _ => rewrite <- How; split; [now right|intros [E|H]; [congruence|exact H]] end.
  Lemma KI_step g sh t sh' t' : tstep kids g sh t sh' t' -> KI g sh (stack t) -> KI g sh' (stack t').
  Proof.
    intros St K0. destruct St as [sh r js os|sh o st js os Hi|sh o st js os Hi|sh o st js os Ho|sh o st js os Hi|sh o st js os Hi
      |sh o st js os|sh o st js os|sh o k ks st js os|sh o ks st js os|sh o st js os|sh o st js os]; inv_ki K0.
    - constructor; cbn; auto.
    - apply KI_leave; auto. apply Hch.
    - constructor; cbn [stack tl held flat_map hold app]; auto.
    - assert (No : ~ In o (held st)) by (intro H; apply How in H; congruence).
      constructor; cbn [stack tl held flat_map hold app owner]; auto.
      + constructor; [exact No|exact Hnd].
      + intro x. destruct (Nat.eq_dec x o) as [->|Ne]; [rewrite set_eq; split; auto; now left|].
        rewrite set_ne by exact Ne. rewrite <- How. split; [intros [E|H]; [congruence|exact H]|now right].
    - inversion Hnd as [|? ? No Nd]; subst. apply KI_leave; auto; [released|]. apply Hch.
    - constructor; cbn [stack tl held flat_map hold app]; auto.
    - constructor; cbn [stack tl held flat_map hold app owner]; auto. cbn in *. repeat split; try tauto. apply incl_refl.
    - constructor; cbn [stack tl held flat_map hold app]; auto.
    - constructor; cbn [stack tl held flat_map hold app]; auto; [now constructor|]. cbn in *. destruct Hch as (_ & K & R). repeat split; auto.
      + apply K. now left.
      + intros x Hx. apply K. now right.
    - constructor; cbn [stack tl held flat_map hold app]; auto. cbn in *. tauto.
    - inversion Hnd as [|? ? No Nd]; subst. apply KI_leave; auto; [released|]. apply Hch.
    - inversion Hnd as [|? ? No Nd]; subst. apply KI_leave; auto; [released|]. apply Hch.
  Qed.
  Lemma owner_step g sh t sh' t' : tstep kids g sh t sh' t' -> KI g sh (stack t) ->
    forall o, owner sh' o = owner sh o \/ (owner sh o = None /\ owner sh' o = Some g) \/ (owner sh o = Some g /\ owner sh' o = None).
  Proof.
    intros St K0. destruct St as [sh r js os|sh o st js os Hi|sh o st js os Hi|sh o st js os Ho|sh o st js os Hi|sh o st js os Hi
      |sh o st js os|sh o st js os|sh o k ks st js os|sh o ks st js os|sh o st js os|sh o st js os]; inv_ki K0;
      try (intro x; left; reflexivity); intro x; cbn [unlock owner];
      (destruct (Nat.eq_dec x o) as [->|Ne]; [rewrite set_eq|rewrite set_ne by exact Ne; auto]); auto; right; right; (split; [apply How; now left|reflexivity]).
  Qed.
  Lemma EI_step s s' : step kids s s' -> EI s -> EI s'.
  Proof.
    intros St [I1 I2]. destruct St as [g sh ts t sh' t' Et Ts]. cbn [fst snd] in *. pose proof (I2 _ _ Et) as K0. pose proof (owner_step _ _ _ _ _ Ts K0) as Ow.
    constructor; cbn [fst snd].
    - intros x h E. rewrite length_put. destruct (Ow x) as [Eq|[[_ Eq]|[_ Eq]]]; rewrite Eq in E; [eapply I1, E| |discriminate].
      injection E as <-. apply nth_error_Some. congruence.
    - intros h u. rewrite nth_put. destruct (Nat.eqb_spec h g) as [->|Ne].
      + rewrite Et. intros [= <-]. eapply KI_step; eassumption.
      + intro Eu. eapply KI_other; [|exact (I2 _ _ Eu)]. intro x.
        destruct (Ow x) as [Eq|[[E1 Eq]|[E1 Eq]]]; rewrite Eq; [reflexivity| |]; rewrite E1; split; intro X; try discriminate; injection X; congruence.
  Qed.
  Lemma EI_ids s s' : ids_change s s' -> EI s -> EI s'.
  Proof.
    intros [o sh ts|o sh ts] [I1 I2]; (constructor; cbn [fst snd owner] in *; [exact I1|]; intros g t Et; eapply KI_other; [|exact (I2 _ _ Et)]; reflexivity).
  Qed.
  Lemma EI_run init work n s : erun kids (start init work) n s -> EI s.
  Proof.
    remember (start init work) as s0 eqn:E. induction 1 as [s|s n s' s'' _ IH St|s n s' s'' _ IH St]; [|eapply EI_step; eauto|eapply EI_ids; eauto].
    subst. constructor; cbn.
    - discriminate.
    - intros g t H. rewrite nth_error_map in H. destruct (nth_error work g); [|discriminate]. injection H as <-. constructor; cbn.
      + constructor.
      + constructor.
      + intro o. split; [intros []|discriminate].
      + exact I.
  Qed.
  Lemma ego_or_wait g sh ts t : nth_error ts g = Some t -> stack t <> [] \/ jobs t <> [] ->
    (exists s', step kids (sh, ts) s') \/ exists o rest, stack t = Want o :: rest /\ owner sh o <> None.
  Proof.
    intros Et Ne. destruct t as [st js os]. cbn in *.
    assert (Go : forall sh' t', tstep kids g sh (T st js os) sh' t' -> exists s', step kids (sh, ts) s').
    { intros sh' t' H. eexists. econstructor; eassumption. }
    destruct st as [|f st].
    - destruct js as [|r js]; [tauto|]. left. eapply Go. constructor.
    - destruct f as [o|o|o|o|o ks|o].
      + left. destruct (ids sh o) eqn:E; eapply Go; [apply ts_known|apply ts_unknown]; exact E.
      + destruct (owner sh o) eqn:E; [right; exists o, st; split; [reflexivity|congruence]|left; eapply Go; apply ts_lock; exact E].
      + left. destruct (ids sh o) eqn:E; eapply Go; [apply ts_encoded|apply ts_class]; exact E.
      + left. eapply Go. apply ts_insert.
      + left. destruct ks as [|k ks]; eapply Go; [apply ts_done|apply ts_child].
      + left. eapply Go. apply ts_fail.
  Qed.

  Context (rank : nat -> nat) (ranked : forall o k, In k (kids o) -> (rank k < rank o)%nat).
  Lemma kchain_rank st : forall s, kchain (Some s) st -> forall f, In f st -> (rank s < rank (fobj f))%nat.
  Proof.
    induction st as [|f st IH]; intros s; [intros _ f []|]. cbn. intros (A & _ & R) f' [<-|H]; [now apply ranked|].
    specialize (IH _ R f' H). apply ranked in A. lia.
  Qed.
  Lemma eprogress_from sh ts : EI (sh, ts) -> forall d g t o rest, nth_error ts g = Some t -> stack t = Want o :: rest ->
    (rank o <= d)%nat -> exists s', step kids (sh, ts) s'.
  Proof.
    intros G. induction d as [|d IH]; intros g t o rest Et Es Hd;
      (destruct (ego_or_wait g sh ts t Et) as [S_|(o' & rest' & E' & Ow)]; [rewrite Es; left; discriminate|exact S_|];
       rewrite Es in E'; injection E' as <- <-; destruct (owner sh o) as [h|] eqn:Eh; [|congruence];
       pose proof (ei_range _ G _ _ Eh) as Lt; cbn in Lt; apply nth_error_Some in Lt; destruct (nth_error ts h) as [u|] eqn:Eu; [|congruence];
       pose proof (ei_threads _ G _ _ Eu) as TIu; cbn in TIu; pose proof (proj2 (ki_own _ _ _ TIu o) Eh) as Ho;
       destruct (ego_or_wait h sh ts u Eu) as [S_|(p & rst & Ep & Op)]; [left; intro C; rewrite C in Ho; exact Ho|exact S_|];
       rewrite Ep in Ho, TIu; cbn [held flat_map hold app] in Ho; apply in_flat_map in Ho as (f & Hf & Hc);
       pose proof (ki_chain _ _ _ TIu) as (_ & _ & Ch); cbn [fobj] in Ch; pose proof (kchain_rank _ _ Ch f Hf) as L;
       assert (fobj f = o) by (destruct f; cbn in Hc; try contradiction; destruct Hc as [<-|[]]; reflexivity); subst o).
    - lia.
    - eapply (IH h u p rst); try eassumption. lia.
  Qed.
  Lemma eprogress s : EI s -> ~ finished s -> exists s', step kids s s'.
  Proof.
    intros G Nf. destruct s as [sh ts].
    assert (X : exists t, In t ts /\ (stack t <> [] \/ jobs t <> [])).
    { clear G. unfold finished in Nf. cbn in Nf. induction ts as [|t ts IH]; [exfalso; apply Nf; intros t []|].
      destruct (stack t) eqn:E; [|exists t; split; [now left|left; congruence]].
      destruct (jobs t) eqn:E'; [|exists t; split; [now left|right; congruence]].
      destruct IH as (u & Hu & Hn); [|exists u; split; [now right|exact Hn]]. intro C. apply Nf. intros u [<-|H]; auto. }
    destruct X as (t & Ht & Hn). apply In_nth_error in Ht as [g Et].
    destruct (ego_or_wait g sh ts t Et Hn) as [S_|(o & rest & Es & _)]; [exact S_|].
    eapply (eprogress_from sh ts G (rank o) g t o rest); eauto.
  Qed.
  Lemma efinished_free s : EI s -> finished s -> forall o, owner (fst s) o = None.
  Proof.
    intros G F o. destruct (owner (fst s) o) as [g|] eqn:E; [|reflexivity]. exfalso.
    pose proof (ei_range _ G _ _ E) as L. apply nth_error_Some in L. destruct (nth_error (snd s) g) as [t|] eqn:Et; [|congruence].
    pose proof (proj2 (ki_own _ _ _ (ei_threads _ G _ _ Et) o) E) as H. destruct (F t (nth_error_In _ _ Et)) as [Es _]. now rewrite Es in H.
  Qed.

  Notation W := (ClassDataProofs.V kids rank).
  Notation nsum := ClassDataProofs.nsum.
  Definition ecost (f : frame) : nat :=
    match f with
    | Check o => W o | Want o => W o - 1 | Recheck o => W o - 2 | Insert o => W o - 3
    | Kids _ ks => 3 + nsum (map (fun s => S (W s)) ks) | Fail _ => 1
    end%nat.
  Definition etcost (t : thread) : nat := (nsum (map ecost (stack t)) + nsum (map (fun s => S (W s)) (jobs t)))%nat.
  Lemma eleave_cost o b st js os : (etcost (leave o b st js os) <= nsum (map ecost st) + nsum (map (fun s => S (W s)) js))%nat.
  Proof.
    unfold etcost. rewrite leave_stack. destruct st as [|f st]; [cbn; lia|]. destruct b; cbn [leave jobs]; [lia|]. cbn. destruct f; cbn; lia.
  Qed.
  Lemma estep_cost g sh t sh' t' : tstep kids g sh t sh' t' -> (etcost t' < etcost t)%nat.
  Proof.
    intro St. destruct St;
      try (match goal with |- context [leave ?o ?b ?st ?js ?os] => pose proof (eleave_cost o b st js os) end);
      try pose proof (V_eq kids rank ranked o); unfold etcost in *; cbn [stack jobs] in *; cbn [map ecost ClassDataProofs.nsum] in *; lia.
  Qed.
  Lemma esum_put ts g t t' : nth_error ts g = Some t ->
    (nsum (map etcost (put ts g t')) + etcost t = nsum (map etcost ts) + etcost t')%nat.
  Proof.
    revert g. induction ts as [|u ts IH]; intros [|g] E; cbn in *; try discriminate; [injection E as ->; lia|]. specialize (IH _ E). lia.
  Qed.
  Lemma erun_cost s n s' : erun kids s n s' -> (nsum (map etcost (snd s')) + n <= nsum (map etcost (snd s)))%nat.
  Proof.
    induction 1 as [s|s n s' s'' _ IH St|s n s' s'' _ IH St]; [lia| |].
    - destruct St as [g sh ts t sh' t' Et Ts]. cbn [snd] in *. pose proof (esum_put ts g t t' Et). pose proof (estep_cost _ _ _ _ _ Ts). lia.
    - destruct St; cbn [snd] in *; lia.
  Qed.
End EncodeClear.
