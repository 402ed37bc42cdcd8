(** Goroutines that encode objects: locks, rows, progress and termination. *)
From Verif Require Import Base EncodeModel EncodeSpec.

Lemma nth_put l i x j : nth_error (put l i x) j = if Nat.eqb j i then match nth_error l i with Some _ => Some x | None => None end else nth_error l j.
Proof.
  revert i j. induction l as [|y l IH]; intros [|i] [|j]; cbn; try reflexivity.
  - now destruct (Nat.eqb j i).
  - apply IH.
Qed.
Lemma length_put l i x : length (put l i x) = length l.
Proof. revert i. induction l as [|y l IH]; intros [|i]; cbn; congruence. Qed.
Lemma set_eq {B} (f : nat -> B) o b : set f o b o = b. Proof. unfold set. now rewrite Nat.eqb_refl. Qed.
Lemma set_ne {B} (f : nat -> B) o b x : x <> o -> set f o b x = f x.
Proof. unfold set. intro N. apply Nat.eqb_neq in N. now rewrite N. Qed.

Lemma firstn_incl_le {B} m n (l : list B) x : (m <= n)%nat -> In x (firstn m l) -> In x (firstn n l).
Proof. revert n l. induction m as [|m IH]; intros [|n] [|y l] L; cbn; try tauto; try lia. intros [E|H]; [auto|right; apply IH; [lia|exact H]]. Qed.

Lemma nodup_snoc {B} (l : list B) x : NoDup l -> ~ In x l -> NoDup (l ++ [x]).
Proof. intros N H. apply (NoDup_Add (a := x) (l := l)); [|auto]. rewrite <- (app_nil_r l) at 1. apply Add_app. Qed.

Lemma run_cons kids s s' n s'' : step kids s s' -> run kids s' n s'' -> run kids s (S n) s''.
Proof. intros St R. induction R as [s'|s' n t u _ IH St']; [eapply run_snoc; [constructor|exact St]|]. eapply run_snoc; [apply IH, St|exact St']. Qed.

Section Encode.
  Context (kids : nat -> list nat) (init : nat -> bool).

  Definition hold (f : frame) : list nat :=
    match f with Check _ | Want _ => [] | Recheck o | Insert o | Kids o _ | Fail o => [o] end.
  Definition held (st : list frame) : list nat := flat_map hold st.
  Definition isKids (f : frame) : Prop := match f with Kids _ _ => True | _ => False end.
  Definition top (sh : shared) (st : list frame) : Prop :=
    match st with
    | Insert o :: _ => ids sh o = false
    | Want o :: rest => exists n, (n <= length (rows sh))%nat /\ ~ In o (firstn n (rows sh)) /\ forall p, In p (held rest) -> In p (firstn n (rows sh))
    | _ => True
    end.
  Record TI (g : nat) (sh : shared) (st : list frame) : Prop := {
    ti_shape : Forall isKids (tl st);
    ti_nodup : NoDup (held st);
    ti_own : forall o, In o (held st) <-> owner sh o = Some g;
    ti_rows : forall o ks, In (Kids o ks) st -> In o (rows sh);
    ti_top : top sh st }.
  Record GI (s : state) : Prop := {
    gi_ids : forall o, ids (fst s) o = true <-> init o = true \/ In o (rows (fst s));
    gi_nodup : NoDup (rows (fst s));
    gi_new : forall o, In o (rows (fst s)) -> init o = false;
    gi_range : forall o g, owner (fst s) o = Some g -> (g < length (snd s))%nat;
    gi_threads : forall g t, nth_error (snd s) g = Some t -> TI g (fst s) (stack t) }.

  Lemma TI_other g sh sh' st :
    (forall o, owner sh' o = Some g <-> owner sh o = Some g) ->
    (exists l, rows sh' = rows sh ++ l) ->
    (forall o, owner sh o = Some g -> ids sh' o = ids sh o) ->
    TI g sh st -> TI g sh' st.
  Proof.
    intros O [l R] I [Sh_ N Ow Ro To]. constructor; try assumption.
    - intro o. now rewrite Ow, O.
    - intros o ks H. rewrite R. apply in_or_app. left. eapply Ro, H.
    - destruct st as [|f rest]; [exact To|]. destruct f as [o|o|o|o|o ks|o]; try exact To; cbn in *.
      + destruct To as (n & Hn & Hno & Hp). exists n. rewrite R, app_length, firstn_app.
        replace (n - length (rows sh))%nat with 0%nat by lia. cbn. rewrite app_nil_r. split; [lia|]. split; assumption.
      + rewrite I; [exact To|]. apply Ow. now left.
  Qed.

  Lemma leave_stack o b st js os : stack (leave o b st js os) = match st with [] => [] | f :: st' => (if b then f else failed f) :: st' end.
  Proof. now destruct st. Qed.

  (** a stack of callers, after the innermost call has returned *)
  Lemma TI_leave g sh o b st js os :
    Forall isKids st -> NoDup (held st) -> (forall x, In x (held st) <-> owner sh x = Some g) ->
    (forall o ks, In (Kids o ks) st -> In o (rows sh)) -> TI g sh (stack (leave o b st js os)).
  Proof.
    intros S_ N Ow Ro. rewrite leave_stack. destruct st as [|f st]; [constructor; cbn; auto; try constructor|].
    inversion S_ as [|? ? Hf Hs]; subst. destruct f as [?|?|?|?|p ks|?]; try contradiction.
    assert (E : held ((if b then Kids p ks else failed (Kids p ks)) :: st) = held (Kids p ks :: st)) by (destruct b; reflexivity).
    constructor; rewrite ?E; try assumption.
    - intros q ks' H. destruct b; [now apply (Ro q ks')|]. destruct H as [H|H]; [discriminate|]. apply (Ro q ks'). now right.
    - destruct b; exact I.
  Qed.

  Ltac inv_ti H := destruct H as [Hsh Hnd How Hro Hto]; cbn [stack tl held flat_map hold app] in *.

  Lemma kids_held st : Forall isKids st -> forall p, In p (held st) -> exists ks, In (Kids p ks) st.
  Proof.
    intros F p H. unfold held in H. apply in_flat_map in H as (f & Hf & Hp). pose proof (proj1 (Forall_forall _ _) F f Hf) as K.
    destruct f as [?|?|?|?|q ks|?]; try contradiction. destruct Hp as [<-|[]]. exists ks. exact Hf.
  Qed.

  (** the goroutine that takes a step, and the others *)
  Lemma TI_step g sh t sh' t' : tstep kids g sh t sh' t' ->
    (forall o, ids sh o = true <-> init o = true \/ In o (rows sh)) -> TI g sh (stack t) -> TI g sh' (stack t').
  Proof.
    intros St Ids TI0. destruct St as [sh r js os|sh o st js os Hi|sh o st js os Hi|sh o st js os Ho|sh o st js os Hi|sh o st js os Hi
      |sh o st js os|sh o st js os|sh o k ks st js os|sh o ks st js os|sh o st js os|sh o st js os]; inv_ti TI0.
    - constructor; cbn; auto. intros o ks [E|[]]. discriminate.
    - apply TI_leave; auto. intros p ks H. apply (Hro p ks). now right.
    - constructor; cbn [stack tl held flat_map hold app]; auto.
      + intros p ks [E|H]; [discriminate|]. apply (Hro p ks). now right.
      + exists (length (rows sh)). rewrite firstn_all. split; [lia|]. split.
        * intro H. assert (ids sh o = true) by (apply Ids; auto). congruence.
        * intros p H. destruct (kids_held st Hsh p H) as [ks Hk]. apply (Hro p ks). now right.
    - assert (No : ~ In o (held st)) by (intro H; apply How in H; congruence).
      constructor; cbn [stack tl held flat_map hold app owner rows]; auto.
      + constructor; [exact No|exact Hnd].
      + intro x. destruct (Nat.eq_dec x o) as [->|Ne]; [rewrite set_eq; split; auto; now left|].
        rewrite set_ne by exact Ne. rewrite <- How. split; [intros [E|H]; [congruence|exact H]|now right].
      + intros p ks [E|H]; [discriminate|]. apply (Hro p ks). now right.
      + exact I.
    - inversion Hnd as [|? ? No Nd]; subst. apply TI_leave; auto; cbn [unlock owner rows].
      + intro x. destruct (Nat.eq_dec x o) as [->|Ne]; [rewrite set_eq; split; [contradiction|discriminate]|].
        rewrite set_ne by exact Ne. rewrite <- How. split; [now right|intros [E|H]; [congruence|exact H]].
      + intros p ks H. apply (Hro p ks). now right.
    - constructor; cbn [stack tl held flat_map hold app]; auto.
      intros p ks [E|H]; [discriminate|]. apply (Hro p ks). now right.
    - constructor; cbn [stack tl held flat_map hold app owner rows]; auto; try exact I.
      intros p ks [E|H]; apply in_or_app; [injection E as <- _; right; now left|]. left. apply (Hro p ks). now right.
    - constructor; cbn [stack tl held flat_map hold app]; auto; try exact I.
      intros p ks [E|H]; [discriminate|]. apply (Hro p ks). now right.
    - constructor; cbn [stack tl held flat_map hold app]; auto; try exact I; try now constructor.
      intros p ks' [E|[E|H]]; [discriminate|injection E as <- _; apply (Hro o (k :: ks)); now left|]. apply (Hro p ks'). now right.
    - constructor; cbn [stack tl held flat_map hold app]; auto; try exact I.
      intros p ks' [E|H]; [discriminate|]. apply (Hro p ks'). now right.
    - inversion Hnd as [|? ? No Nd]; subst. apply TI_leave; auto; cbn [unlock owner rows].
      + intro x. destruct (Nat.eq_dec x o) as [->|Ne]; [rewrite set_eq; split; [contradiction|discriminate]|].
        rewrite set_ne by exact Ne. rewrite <- How. split; [now right|intros [E|H]; [congruence|exact H]].
      + intros p ks H. apply (Hro p ks). now right.
    - inversion Hnd as [|? ? No Nd]; subst. apply TI_leave; auto; cbn [unlock owner rows].
      + intro x. destruct (Nat.eq_dec x o) as [->|Ne]; [rewrite set_eq; split; [contradiction|discriminate]|].
        rewrite set_ne by exact Ne. rewrite <- How. split; [now right|intros [E|H]; [congruence|exact H]].
      + intros p ks H. apply (Hro p ks). now right.
  Qed.

  (** what a step does to what is shared *)
  Lemma step_shared g sh t sh' t' : tstep kids g sh t sh' t' -> TI g sh (stack t) ->
    (forall o, owner sh' o = owner sh o \/ (owner sh o = None /\ owner sh' o = Some g) \/ (owner sh o = Some g /\ owner sh' o = None))
    /\ ((rows sh' = rows sh /\ (forall o, ids sh' o = ids sh o))
        \/ exists o, rows sh' = rows sh ++ [o] /\ (forall x, ids sh' x = set (ids sh) o true x) /\ ids sh o = false /\ owner sh o = Some g).
  Proof.
    intros St TI0. destruct St as [sh r js os|sh o st js os Hi|sh o st js os Hi|sh o st js os Ho|sh o st js os Hi|sh o st js os Hi
      |sh o st js os|sh o st js os|sh o k ks st js os|sh o ks st js os|sh o st js os|sh o st js os]; inv_ti TI0;
      try (split; [intro x; left; reflexivity|left; split; [reflexivity|reflexivity]]).
    - split; [|left; split; reflexivity]. intro x. cbn. destruct (Nat.eq_dec x o) as [->|Ne]; [rewrite set_eq; right; left; auto|rewrite set_ne by exact Ne; auto].
    - split; [|left; split; reflexivity]. intro x. cbn. destruct (Nat.eq_dec x o) as [->|Ne]; [rewrite set_eq; right; right; split; [apply How; now left|reflexivity]|rewrite set_ne by exact Ne; auto].
    - split; [intro x; left; reflexivity|]. right. exists o. repeat split; [exact Hto|]. apply How. now left.
    - split; [|left; split; reflexivity]. intro x. cbn. destruct (Nat.eq_dec x o) as [->|Ne]; [rewrite set_eq; right; right; split; [apply How; now left|reflexivity]|rewrite set_ne by exact Ne; auto].
    - split; [|left; split; reflexivity]. intro x. cbn. destruct (Nat.eq_dec x o) as [->|Ne]; [rewrite set_eq; right; right; split; [apply How; now left|reflexivity]|rewrite set_ne by exact Ne; auto].
  Qed.

  Lemma GI_step s s' : step kids s s' -> GI s -> GI s'.
  Proof.
    intros St [I1 I2 I3 I4 I5]. destruct St as [g sh ts t sh' t' Et Ts]. cbn [fst snd] in *. pose proof (I5 _ _ Et) as TI0.
    destruct (step_shared _ _ _ _ _ Ts TI0) as [Ow Ri]. pose proof (TI_step _ _ _ _ _ Ts I1 TI0) as TI1. constructor; cbn [fst snd].
    - intro x. destruct Ri as [[R Id]|(o & R & Id & F & _)]; rewrite R, Id; [apply I1|]. destruct (Nat.eq_dec x o) as [->|Ne].
      + rewrite set_eq. split; [intros _; right; apply in_or_app; right; now left|reflexivity].
      + rewrite set_ne by exact Ne. rewrite I1, in_app_iff. cbn. intuition congruence.
    - destruct Ri as [[R Id]|(o & R & Id & F & _)]; rewrite R; [exact I2|]. apply nodup_snoc; [exact I2|].
      intro Hx. assert (ids sh o = true) by (apply I1; auto). congruence.
    - intros x. destruct Ri as [[R Id]|(o & R & Id & F & _)]; rewrite R; [apply I3|]. rewrite in_app_iff. intros [H|[<-|[]]]; [auto|].
      destruct (init o) eqn:E; [|reflexivity]. assert (ids sh o = true) by (apply I1; auto). congruence.
    - intros x h E. rewrite length_put. destruct (Ow x) as [Eq|[[_ Eq]|[_ Eq]]]; rewrite Eq in E.
      + eapply I4, E.
      + injection E as <-. apply nth_error_Some. congruence.
      + discriminate.
    - intros h u. rewrite nth_put. destruct (Nat.eqb_spec h g) as [->|Ne].
      + rewrite Et. intros [= <-]. exact TI1.
      + intro Eu. eapply TI_other; [| | |exact (I5 _ _ Eu)].
        * intro x. destruct (Ow x) as [Eq|[[E1 Eq]|[E1 Eq]]]; rewrite Eq; [reflexivity| |]; rewrite E1; split; intro X; try discriminate; injection X; congruence.
        * destruct Ri as [[R Id]|(o & R & _)]; [exists []; now rewrite app_nil_r|eauto].
        * intros x Hx. destruct Ri as [[R Id]|(o & R & Id & F & Og)]; [apply Id|]. rewrite Id. apply set_ne. intros ->. congruence.
  Qed.

  Lemma GI_start work : GI (start init work).
  Proof.
    constructor; cbn.
    - intro o. tauto.
    - constructor.
    - intros o [].
    - discriminate.
    - intros g t H. rewrite nth_error_map in H. destruct (nth_error work g); [|discriminate]. injection H as <-. constructor; cbn.
      + constructor.
      + constructor.
      + intro o. split; [intros []|discriminate].
      + intros o ks [].
      + exact I.
  Qed.
  Lemma GI_run work n s : run kids (start init work) n s -> GI s.
  Proof.
    remember (start init work) as s0 eqn:E. induction 1 as [s|s n s' s'' _ IH St]; [subst; apply GI_start|]. eapply GI_step; eauto.
  Qed.

  (** a goroutine that can go on, or waits for an object with an id registered later than that of all its own *)
  Lemma go_or_wait g sh ts t : GI (sh, ts) -> nth_error ts g = Some t -> stack t <> [] \/ jobs t <> [] ->
    (exists s', step kids (sh, ts) s')
    \/ exists o rest, stack t = Want o :: rest /\ owner sh o <> None.
  Proof.
    intros G Et Ne. destruct t as [st js os]. cbn in *.
    assert (Go : forall sh' t', tstep kids g sh (T st js os) sh' t' -> exists s', step kids (sh, ts) s').
    { intros sh' t' H. eexists. econstructor; eassumption. }
    destruct st as [|f st].
    - destruct js as [|r js]; [tauto|]. left. eapply Go. constructor.
    - destruct f as [o|o|o|o|o ks|o].
      + left. destruct (ids sh o) eqn:E; eapply Go; [apply ts_known|apply ts_unknown]; exact E.
      + destruct (owner sh o) eqn:E; [right; exists o, st; split; [reflexivity|congruence]|left; eapply Go; apply ts_lock; exact E].
      + left. destruct (ids sh o) eqn:E; eapply Go; [apply ts_encoded|apply ts_class]; exact E.
      + left. eapply Go. apply ts_insert.
      + left. destruct ks as [|k ks]; eapply Go; [apply ts_done|apply ts_child].
      + left. eapply Go. apply ts_fail.
  Qed.
  Lemma progress_from sh ts : GI (sh, ts) -> forall d g t o rest n, nth_error ts g = Some t -> stack t = Want o :: rest ->
    (n <= length (rows sh))%nat -> ~ In o (firstn n (rows sh)) -> (length (rows sh) - n <= d)%nat -> exists s', step kids (sh, ts) s'.
  Proof.
    intros G. induction d as [|d IH]; intros g t o rest n Et Es Hn No Hd;
      (destruct (go_or_wait g sh ts t G Et) as [S_|(o' & rest' & E' & Ow)]; [rewrite Es; left; discriminate|exact S_|];
       rewrite Es in E'; injection E' as <- <-; destruct (owner sh o) as [h|] eqn:Eh; [|congruence];
       pose proof (gi_range _ G _ _ Eh) as Lt; cbn in Lt; apply nth_error_Some in Lt; destruct (nth_error ts h) as [u|] eqn:Eu; [|congruence];
       pose proof (gi_threads _ G _ _ Eu) as TIu; cbn in TIu; pose proof (proj2 (ti_own _ _ _ TIu o) Eh) as Ho;
       destruct (go_or_wait h sh ts u G Eu) as [S_|(p & rst & Ep & Op)]; [left; intro C; rewrite C in Ho; exact Ho|exact S_|];
       rewrite Ep in Ho, TIu; pose proof (ti_top _ _ _ TIu) as (m & Hm & Nm & Am); cbn [held flat_map hold app] in Ho; specialize (Am _ Ho);
       assert (n < m)%nat by (destruct (Nat.le_gt_cases m n) as [L|L]; [exfalso; apply No; eapply (firstn_incl_le m n); eassumption|exact L])).
    - lia.
    - eapply (IH h u p rst m); try eassumption. lia.
  Qed.

  Lemma progress s : GI s -> ~ finished s -> exists s', step kids s s'.
  Proof.
    intros G Nf. destruct s as [sh ts].
    assert (X : exists t, In t ts /\ (stack t <> [] \/ jobs t <> [])).
    { clear G. unfold finished in Nf. cbn in Nf. induction ts as [|t ts IH]; [exfalso; apply Nf; intros t []|].
      destruct (stack t) eqn:E; [|exists t; split; [now left|left; congruence]].
      destruct (jobs t) eqn:E'; [|exists t; split; [now left|right; congruence]].
      destruct IH as (u & Hu & Hn); [|exists u; split; [now right|exact Hn]]. intro C. apply Nf. intros u [<-|H]; auto. }
    destruct X as (t & Ht & Hn). apply In_nth_error in Ht as [g Et].
    destruct (go_or_wait g sh ts t G Et Hn) as [S_|(o & rest & Es & _)]; [exact S_|].
    pose proof (ti_top _ _ _ (gi_threads _ G _ _ Et)) as To. cbn in To. rewrite Es in To. destruct To as (n & Hle & No & _).
    eapply (progress_from sh ts G (length (rows sh)) g t o rest n); try eassumption. lia.
  Qed.
  Lemma finished_free s : GI s -> finished s -> forall o, owner (fst s) o = None.
  Proof.
    intros G F o. destruct (owner (fst s) o) as [g|] eqn:E; [|reflexivity]. exfalso.
    pose proof (gi_range _ G _ _ E) as L. apply nth_error_Some in L. destruct (nth_error (snd s) g) as [t|] eqn:Et; [|congruence].
    pose proof (proj2 (ti_own _ _ _ (gi_threads _ G _ _ Et) o) E) as H. destruct (F t (nth_error_In _ _ Et)) as [Es _]. now rewrite Es in H.
  Qed.

  Fixpoint nsum (l : list nat) : nat := match l with [] => 0%nat | x :: r => (x + nsum r)%nat end.
  (** each step uses up some of a finite amount of work *)
  Definition fobj (f : frame) : nat := match f with Check o | Want o | Recheck o | Insert o | Kids o _ | Fail o => o end.
  Definition cost (f : frame) : nat :=
    match f with Check _ => 8 | Want _ => 7 | Recheck _ => 6 | Insert _ => 5 | Kids _ ks => 3 + 9 * length ks | Fail _ => 1 end%nat.
  Definition costs (st : list frame) : nat := nsum (map cost st).
  Definition tcost (t : thread) : nat := (costs (stack t) + 9 * length (jobs t))%nat.
  Definition unset (N : list nat) (i : nat -> bool) : nat := nsum (map (fun o => if i o then 0 else 9 * length (kids o))%nat N).
  Definition left_ (N : list nat) (s : state) : nat := (unset N (ids (fst s)) + nsum (map tcost (snd s)))%nat.

  Lemma sum_put ts g t t' : nth_error ts g = Some t ->
    (nsum (map tcost (put ts g t')) + tcost t = nsum (map tcost ts) + tcost t')%nat.
  Proof.
    revert g. induction ts as [|u ts IH]; intros [|g] E; cbn in *; try discriminate; [injection E as ->; lia|]. specialize (IH _ E). lia.
  Qed.
  Lemma unset_same N i j : (forall o, i o = j o) -> unset N i = unset N j.
  Proof. intro H. unfold unset. f_equal. apply map_ext. intro o. now rewrite H. Qed.
  Lemma unset_notin N i o : ~ In o N -> unset N (set i o true) = unset N i.
  Proof.
    intro H. unfold unset. f_equal. apply map_ext_in. intros x Hx. rewrite set_ne; [reflexivity|]. intros ->. contradiction.
  Qed.
  Lemma unset_set N i o : NoDup N -> In o N -> i o = false -> (unset N (set i o true) + 9 * length (kids o) = unset N i)%nat.
  Proof.
    intros D H F. induction N as [|x N IH]; [contradiction|]. inversion D as [|? ? Nx Dn]; subst. unfold unset in *. cbn [map nsum] in *.
    destruct (Nat.eq_dec x o) as [->|Ne].
    - rewrite set_eq, F. pose proof (unset_notin N i o Nx) as U. unfold unset in U. lia.
    - rewrite set_ne by exact Ne. destruct H as [H|H]; [congruence|]. specialize (IH Dn H). lia.
  Qed.
  Lemma leave_cost o b st js os : (tcost (leave o b st js os) <= costs st + 9 * length js)%nat.
  Proof.
    unfold tcost. rewrite leave_stack. destruct st as [|f st]; [cbn; lia|]. destruct b; cbn [leave jobs]; [lia|].
    unfold costs. cbn. destruct f; cbn; lia.
  Qed.

  (** the objects the goroutines deal with *)
  Definition inside (N : list nat) (t : thread) : Prop :=
    incl (jobs t) N /\ forall f, In f (stack t) -> In (fobj f) N /\ forall o ks, f = Kids o ks -> incl ks N.
  Lemma fobj_failed f : fobj (failed f) = fobj f.
  Proof. now destruct f. Qed.
  Lemma inside_leave N o b st js os : inside N (T st js os) -> inside N (leave o b st js os).
  Proof.
    intros [Hj Hf]. cbn in *. destruct st as [|f st]; [split; cbn; [exact Hj|intros f []]|]. split; [exact Hj|]. cbn.
    intros f' [<-|H]; [|apply Hf; now right]. destruct b; [apply Hf; now left|]. rewrite fobj_failed. split; [apply (Hf f); now left|].
    intros p ks E. destruct f; discriminate.
  Qed.
  Lemma inside_tl N f st js os : inside N (T (f :: st) js os) -> inside N (T st js os).
  Proof. intros [Hj Hf]. split; [exact Hj|]. intros f' H. apply Hf. now right. Qed.
  Lemma inside_top N f f' st js os : inside N (T (f :: st) js os) -> fobj f' = fobj f -> (forall o ks, f' = Kids o ks -> incl ks N) ->
    inside N (T (f' :: st) js os).
  Proof. intros [Hj Hf] E K. split; [exact Hj|]. intros x [<-|H]; [split; [rewrite E; apply Hf; now left|exact K]|apply Hf; now right]. Qed.
  Lemma inside_step N g sh t sh' t' : closed kids N -> tstep kids g sh t sh' t' -> inside N t -> inside N t'.
  Proof.
    intros [_ Cl] St In_. destruct St.
    - destruct In_ as [Hj _]. split; cbn in *; [intros x H; apply Hj; now right|]. intros f [<-|[]]. split; [apply Hj; now left|discriminate].
    - apply inside_leave. eapply inside_tl, In_.
    - eapply inside_top; [exact In_|reflexivity|discriminate].
    - eapply inside_top; [exact In_|reflexivity|discriminate].
    - apply inside_leave. eapply inside_tl, In_.
    - eapply inside_top; [exact In_|reflexivity|discriminate].
    - eapply inside_top; [exact In_|reflexivity|]. intros p ks [= <- <-]. apply Cl. exact (proj1 (proj2 In_ _ (or_introl eq_refl))).
    - eapply inside_top; [exact In_|reflexivity|discriminate].
    - pose proof In_ as [Hj Hf]. destruct (Hf _ (or_introl eq_refl)) as [Ho Hk]. specialize (Hk _ _ eq_refl). split; [exact Hj|].
      intros f [<-|H].
      + split; [apply Hk; now left|discriminate].
      + destruct H as [<-|H]; [|apply Hf; now right]. split; [exact Ho|]. intros p ks' [= <- <-] x Hx. apply Hk. now right.
    - eapply inside_top; [exact In_|reflexivity|discriminate].
    - apply inside_leave. eapply inside_tl, In_.
    - apply inside_leave. eapply inside_tl, In_.
  Qed.
  Lemma step_cost N g sh t sh' t' : closed kids N -> tstep kids g sh t sh' t' -> inside N t -> TI g sh (stack t) ->
    (unset N (ids sh') + tcost t' < unset N (ids sh) + tcost t)%nat.
  Proof.
    intros [Nd _] St In_ TI0. destruct St;
      try (match goal with |- context [leave ?o ?b ?st ?js ?os] => pose proof (leave_cost o b st js os) end);
      unfold tcost in *; cbn [ids unlock stack jobs] in *; unfold costs in *; cbn [map cost nsum length] in *; try lia.
    pose proof (ti_top _ _ _ TI0) as F. cbn in F. pose proof (unset_set N (ids sh) o Nd) as U.
    destruct In_ as [_ Hf]. specialize (U (proj1 (Hf _ (or_introl eq_refl))) F). lia.
  Qed.
  Lemma run_cost N work n s : closed kids N -> (forall o, requested work o -> In o N) -> run kids (start init work) n s ->
    (forall t, In t (snd s) -> inside N t) /\ (left_ N s + n <= left_ N (start init work))%nat.
  Proof.
    intros Cl Rq. remember (start init work) as s0 eqn:E. induction 1 as [s|s n s' s'' R IH St].
    - subst. split; [|lia]. intros t Ht. cbn in Ht. apply in_map_iff in Ht as (js & <- & Hj). split; cbn; [|intros f []].
      intros o Ho. apply Rq. exists js. auto.
    - specialize (IH E). destruct IH as [In_ Le]. rewrite E in R. pose proof (GI_run _ _ _ R) as G. rewrite E in *.
      destruct St as [g sh ts t sh' t' Et Ts]. cbn [snd fst] in *. pose proof (In_ _ (nth_error_In _ _ Et)) as It.
      pose proof (step_cost N _ _ _ _ _ Cl Ts It (gi_threads _ G _ _ Et)) as C. split.
      + intros u Hu. apply In_nth_error in Hu as [h Eu]. rewrite nth_put in Eu. destruct (Nat.eqb_spec h g) as [Eq|Ne].
        * subst h. rewrite Et in Eu. injection Eu as <-. eapply inside_step; eassumption.
        * apply In_. eapply nth_error_In, Eu.
      + unfold left_ in *. cbn [fst snd] in *. pose proof (sum_put ts g t t' Et). lia.
  Qed.
End Encode.
