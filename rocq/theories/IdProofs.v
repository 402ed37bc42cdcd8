(** Proofs about id managers. *)
From Verif Require Import Base IdModel IdSpec.

Section Generic.
  Context {I A G P : Type} (ieqb : I -> I -> bool) (peqb : P -> P -> bool)
    (newID : G -> I * G) (isValidID : I -> bool) (getID : A -> option I) (setID : I -> G -> G) (ptr : nat -> P).
  Hypothesis ieqb_ok : forall a b, reflect (a = b) (ieqb a b).
  Hypothesis peqb_ok : forall a b, reflect (a = b) (peqb a b).
  Notation mgr := (mgr I G P).
  Notation setObjectID := (setObjectID ieqb isValidID setID).
  Notation istep := (istep ieqb peqb newID isValidID getID setID ptr).
  Notation irun := (irun ieqb peqb newID isValidID getID setID ptr).
  Implicit Types m : mgr.

  Ltac cases :=
    repeat match goal with
    | H : context [Nat.eqb ?a ?b] |- _ => destruct (Nat.eqb_spec a b)
    | |- context [Nat.eqb ?a ?b] => destruct (Nat.eqb_spec a b)
    | H : context [ieqb ?a ?b] |- _ => destruct (ieqb_ok a b)
    | |- context [ieqb ?a ?b] => destruct (ieqb_ok a b)
    | H : context [peqb ?a ?b] |- _ => destruct (peqb_ok a b)
    | |- context [peqb ?a ?b] => destruct (peqb_ok a b)
    end.

  (** what holds of every reachable state *)
  Definition sound m := resolution_sound (GetID m) (idToObject m).
  Definition valid m := (forall o i, objectToID m o = Some i -> isValidID i = true) /\
                        (forall p i, detachedToID m p = Some i -> isValidID i = true).

  Lemma setObjectID_sound m o i : sound m -> sound (setObjectID m o i).
  Proof.
    intros H o' i'. unfold setObjectID, GetID. unfold sound, resolution_sound, GetID in H.
    destruct (isValidID i); destruct (objectToID m o) as [old|] eqn:E; cbn; unfold put;
      cases; try congruence; intro Q; try (injection Q as <-); subst; try congruence;
      try (apply H in Q; congruence).
  Qed.

  Lemma istep_sound m op : sound m -> sound (istep m op).
  Proof.
    intro H. destruct op as [o|o|o a|]; cbn.
    - unfold Register. destruct (objectToID m o); [exact H|].
      destruct (detachedToID m (ptr o)); [|destruct (newID (gen m))]; now apply setObjectID_sound.
    - unfold UnRegister. destruct (objectToID m o) as [i|] eqn:E; [|exact H].
      intros o' i'; unfold GetID; cbn; unfold put; unfold sound, resolution_sound, GetID in H.
      cases; try congruence; intro Q; apply H in Q; congruence.
    - unfold SetID. destruct (getID a); [now apply setObjectID_sound | exact H].
    - intros o' i' Q; discriminate.
  Qed.

  Lemma irun_ind (R : mgr -> Prop) : (forall m op, R m -> R (istep m op)) -> forall h m, R m -> R (irun m h).
  Proof. intros H h. induction h as [|op h IH]; intros m Hm; [exact Hm|]. cbn. apply IH, H, Hm. Qed.

  Lemma irun_app m h h' : irun m (h ++ h') = irun (irun m h) h'.
  Proof. apply fold_left_app. Qed.

  Lemma New_sound g : sound (New g).
  Proof. intros o i Q; discriminate. Qed.

  Lemma run_sound g h : sound (irun (New g) h).
  Proof. apply (irun_ind sound istep_sound), New_sound. Qed.

  Theorem resolves_soundly g h a o :
    GetEObject getID (irun (New g) h) a = Some o ->
    exists i, getID a = Some i /\ GetID (irun (New g) h) o = Some i.
  Proof.
    unfold GetEObject. destruct (getID a) as [i|]; [|discriminate].
    intro Q. exists i; split; [reflexivity|]. now apply (run_sound g h).
  Qed.

  Lemma setObjectID_valid m o i : valid m -> valid (setObjectID m o i).
  Proof.
    intros [H H']. unfold setObjectID, valid. destruct (isValidID i) eqn:V; cbn; unfold put; split; eauto;
      intros o' i'; cases; try congruence; eauto.
  Qed.
  Lemma istep_valid m op : valid m -> valid (istep m op).
  Proof.
    intro H. destruct op as [o|o|o a|]; cbn.
    - unfold Register. destruct (objectToID m o); [exact H|].
      destruct (detachedToID m (ptr o)) eqn:D; [|destruct (newID (gen m))]; apply setObjectID_valid; destruct H as [H H'];
        split; cbn; eauto.
      unfold put. intros p i'. cases; try congruence; eauto.
    - unfold UnRegister. destruct (objectToID m o) as [i|] eqn:E; [|exact H].
      destruct H as [H H']. split; cbn; unfold put; intros x i'; cases; try congruence; eauto.
      intro Q; injection Q as <-; eauto.
    - unfold SetID. destruct (getID a); [now apply setObjectID_valid | exact H].
    - split; intros ? ? Q; discriminate.
  Qed.
  Lemma run_valid g h : valid (irun (New g) h).
  Proof. apply (irun_ind valid istep_valid). split; intros ? ? Q; discriminate. Qed.

  (** ** identifiers given back *)
  Hypothesis ptr_inj : forall a b, ptr a = ptr b -> a = b.

  Definition parked m o i := GetID m o = None /\ GetDetachedID ptr m o = Some i.
  Lemma parked_step m o i op : about_others o op -> parked m o i -> parked (istep m op) o i.
  Proof.
    intros N [H1 H2]. unfold parked, GetID, GetDetachedID in *.
    assert (S : forall m o' i', o' <> o -> objectToID m o = None -> detachedToID m (ptr o) = Some i ->
                objectToID (setObjectID m o' i') o = None /\ detachedToID (setObjectID m o' i') (ptr o) = Some i).
    { intros m' o' i' No Q1 Q2. unfold setObjectID. destruct (isValidID i'); cbn; unfold put; cases; try congruence; auto. }
    destruct op as [o'|o'|o' a|]; cbn in *; [| | |tauto].
    - unfold Register. destruct (objectToID m o') eqn:E; [auto|].
      destruct (detachedToID m (ptr o')) eqn:D; [|destruct (newID (gen m))]; apply S; cbn; auto.
      unfold put. cases; auto. exfalso; apply N; symmetry; auto.
    - unfold UnRegister. destruct (objectToID m o') eqn:E; [|auto]. cbn. unfold put. cases; try congruence; auto.
      exfalso; apply N; symmetry; auto.
    - unfold SetID. destruct (getID a); auto.
  Qed.
  Lemma parked_run h m o i : Forall (about_others o) h -> parked m o i -> parked (irun m h) o i.
  Proof.
    revert m; induction h as [|op h IH]; intros m F H; [exact H|].
    inversion F; subst. cbn. apply IH; auto. now apply parked_step.
  Qed.

  Theorem given_back g h0 h o i :
    GetID (irun (New g) h0) o = Some i -> Forall (about_others o) h ->
    let m := irun (New g) (h0 ++ OUnRegister o :: h) in
    GetID m o = None /\ GetDetachedID ptr m o = Some i /\
    GetID (istep m (ORegister o)) o = Some i /\ GetEObject (fun x => Some x) (istep m (ORegister o)) i = Some o.
  Proof.
    intros H F m. unfold m. rewrite irun_app.
    change (irun (irun (New g) h0) (OUnRegister o :: h)) with (irun (istep (irun (New g) h0) (OUnRegister o)) h).
    assert (Q : parked (istep (irun (New g) h0) (OUnRegister o)) o i).
    { unfold parked, GetID, GetDetachedID in *. cbn. unfold UnRegister. rewrite H. cbn. unfold put. cases; auto; congruence. }
    apply (parked_run h) in Q; [|exact F].
    assert (V : valid (irun (istep (irun (New g) h0) (OUnRegister o)) h)).
    { apply (irun_ind valid istep_valid), istep_valid, run_valid. }
    set (m1 := irun (istep (irun (New g) h0) (OUnRegister o)) h) in *.
    destruct Q as [Q1 Q2]. destruct V as [_ V].
    split; [exact Q1|split; [exact Q2|]].
    unfold GetID, GetDetachedID, GetEObject in *. cbn [IdModel.istep]. unfold Register. rewrite Q1, Q2. unfold IdModel.setObjectID. cbn [objectToID detachedToID idToObject gen]. rewrite ?Q1.
    rewrite (V _ _ Q2). cbn. unfold put. cases; auto; congruence.
  Qed.

  (** ** uniqueness for considerate histories *)
  Definition good m :=
    sound m /\ ids_resolve (GetID m) (idToObject m) /\
    (forall o o' i, GetDetachedID ptr m o = Some i -> GetID m o' = Some i -> o' = o) /\
    (forall o o' i, GetDetachedID ptr m o = Some i -> GetDetachedID ptr m o' = Some i -> o = o').

  Lemma setObjectID_good m o i : good m -> free_for ptr m o i -> good (setObjectID m o i).
  Proof.
    intros (H1 & H2 & H3 & H4) [F1 F2]. split; [now apply setObjectID_sound|].
    unfold setObjectID. unfold sound, resolution_sound, ids_resolve, GetID, GetDetachedID in *.
    destruct (isValidID i); cbn; unfold put; (split; [|split; [|exact H4]]).
    - intros o' i'. destruct (objectToID m o) as [old|] eqn:E; cases; subst; try congruence; intro Q; auto.
      + apply F1 in Q; congruence.
      + apply H2 in E, Q. congruence.
      + apply F1 in Q; congruence.
    - intros a b j D. cases; subst.
      + intro Q; injection Q as <-. symmetry; eauto.
      + eauto.
    - intros o' i'. destruct (objectToID m o) as [old|] eqn:E; cases; subst; try congruence; intro Q; auto.
      apply H2 in E, Q. congruence.
    - intros a b j D. cases; subst; [discriminate|eauto].
  Qed.

  Lemma good_step m op :
    good m ->
    match op with OSetID o a => forall i, getID a = Some i -> free_for ptr m o i | _ => True end ->
    match op with ORegister o => GetID m o = None -> GetDetachedID ptr m o = None ->
                                 free_for ptr m o (fst (newID (gen m))) | _ => True end ->
    good (istep m op).
  Proof.
    intros H C F. destruct op as [o|o|o a|]; cbn [IdModel.istep].
    - unfold Register. unfold GetID, GetDetachedID in F. destruct (objectToID m o) eqn:E; [exact H|].
      destruct (detachedToID m (ptr o)) as [i|] eqn:D.
      + destruct H as (H1 & H2 & H3 & H4). unfold GetID, GetDetachedID in *.
        apply setObjectID_good.
        * repeat split; [exact H1|exact H2| |].
          -- intros a b j. unfold GetDetachedID; cbn; unfold put. cases; [discriminate|]. apply H3.
          -- intros a b j. unfold GetDetachedID; cbn; unfold put. cases; try discriminate. apply H4.
        * split; [intro o'|intro o'].
          -- unfold GetID; cbn. intro Q. eapply H3; eauto.
          -- unfold GetDetachedID; cbn; unfold put. cases; [discriminate|]. intro Q. eapply H4; eauto.
      + specialize (F eq_refl eq_refl). destruct (newID (gen m)) as [i g] eqn:N. cbn in F.
        apply setObjectID_good; [exact H | exact F].
    - unfold UnRegister. destruct (objectToID m o) as [i|] eqn:E; [|exact H].
      pose proof (istep_sound m (OUnRegister o) (proj1 H)) as HS. cbn in HS. unfold UnRegister in HS. rewrite E in HS.
      destruct H as (H1 & H2 & H3 & H4). split; [exact HS|].
      unfold ids_resolve, GetID, GetDetachedID in *; cbn; unfold put. split; [|split].
      + intros o' i'; cases; subst; try congruence; intro Q; auto. apply H2 in Q, E. congruence.
      + intros a b j. cases; try congruence.
        * intros Q Q'. injection Q as <-. apply H2 in Q', E. congruence.
        * eauto.
      + intros a b j. cases.
        * intros _ _. apply ptr_inj; congruence.
        * intros Q Q'. injection Q as <-. apply ptr_inj in e as ->. eauto.
        * intros Q Q'. injection Q' as <-. apply ptr_inj in e as ->. symmetry; eauto.
        * eauto.
    - unfold SetID. destruct (getID a) as [i|] eqn:N; [|exact H]. apply setObjectID_good; auto.
    - repeat split; unfold Clear, sound, resolution_sound, ids_resolve, GetID, GetDetachedID; cbn; discriminate.
  Qed.

  Lemma good_New g : good (New g).
  Proof. repeat split; unfold sound, resolution_sound, ids_resolve, GetID, GetDetachedID; cbn; discriminate. Qed.

  Lemma good_unique m : good m -> ids_unique (GetID m).
  Proof. intros (_ & H & _) o o' i Q Q'. apply H in Q, Q'. congruence. Qed.

  Theorem considerate_good g h :
    considerate ieqb peqb newID isValidID getID setID ptr (New g) h ->
    generator_fresh ieqb peqb newID isValidID getID setID ptr (New g) h ->
    good (irun (New g) h).
  Proof.
    generalize (good_New g). generalize (New (I:=I) (P:=P) g) as m.
    induction h as [|op h IH]; intros m H C F; [exact H|].
    cbn in C, F. destruct C as [C C'], F as [F F']. cbn. apply IH; auto.
    apply good_step; auto. destruct op; auto.
  Qed.
End Generic.

(** ** the incremental manager *)
Section Incremental.
  Context {P : Type} (peqb : P -> P -> bool) (ptr : nat -> P).
  Hypothesis peqb_ok : forall a b, reflect (a = b) (peqb a b).
  Notation run := (inc_run peqb ptr).
  Notation step := (istep Z.eqb peqb inc_newID inc_isValidID inc_getID inc_setID ptr).
  Implicit Types m : imgr P.

  Definition ZR := Z.eqb_spec.

  Lemma wrap64_id z : - 2 ^ 63 <= z < 2 ^ 63 -> wrap64 z = z.
  Proof. unfold wrap64. intro H. rewrite Z.mod_small; [lia|]. change (2 ^ 64) with (2 * 2 ^ 63). lia. Qed.

  (** every id in use, or kept for a detached object, is below the counter *)
  Definition below m :=
    0 <= gen m /\ (forall o i, objectToID m o = Some i -> i < gen m) /\ (forall p i, detachedToID m p = Some i -> i < gen m).

  Lemma setObjectID_below m o i :
    i < 2 ^ 63 - 1 -> below m ->
    below (setObjectID Z.eqb inc_isValidID inc_setID m o i) /\
    gen m <= gen (setObjectID Z.eqb inc_isValidID inc_setID m o i) <= Z.max (i + 1) (gen m).
  Proof.
    intros Hi (H0 & H1 & H2). unfold setObjectID, below, inc_isValidID, inc_setID.
    destruct (Z.leb_spec 0 i); cbn; unfold put.
    - rewrite wrap64_id by lia. split; [|lia]. split; [lia|]. split.
      + intros o' i'. destruct (Nat.eqb_spec o' o); intro Q; [injection Q as <-; lia|]. apply H1 in Q; lia.
      + intros p i' Q; apply H2 in Q; lia.
    - split; [|lia]. split; [lia|]. split; [|exact H2].
      intros o' i'. destruct (Nat.eqb_spec o' o); [discriminate|]. apply H1.
  Qed.

  Lemma step_below m op :
    below m -> gen m < 2 ^ 63 - 1 ->
    match op with OSetID o a => forall i, inc_getID a = Some i -> i < 2 ^ 63 - 1 | _ => True end ->
    below (step m op) /\ gen m <= gen (step m op) /\
    gen (step m op) <= match op with
                       | OSetID _ a => match inc_getID a with Some i => Z.max (i + 1) (gen m) | None => gen m end
                       | _ => gen m + 1
                       end.
  Proof.
    intros H HL HS. pose proof H as (H0 & H1 & H2). destruct op as [o|o|o a|]; cbn.
    - unfold Register. destruct (objectToID m o) eqn:E; [split; [exact H|lia]|].
      destruct (detachedToID m (ptr o)) as [i|] eqn:D.
      + assert (L : i < gen m) by eauto.
        destruct (setObjectID_below (mkMgr (put peqb (detachedToID m) (ptr o) None) (objectToID m) (idToObject m) (gen m)) o i)
          as [B R]; [lia| |cbn in R; split; [exact B|lia]].
        split; [exact H0|split; [exact H1|]]. cbn. unfold put. intros p i'. destruct (peqb_ok p (ptr o)); [discriminate|]. apply H2.
      + destruct (setObjectID_below (mkMgr (detachedToID m) (objectToID m) (idToObject m) (wrap64 (gen m + 1))) o (gen m))
          as [B R].
        * lia.
        * unfold below; cbn. rewrite wrap64_id by lia. split; [lia|]. split; intros x i' Q; [apply H1 in Q|apply H2 in Q]; lia.
        * cbn in R. unfold inc_newID. split; [exact B|]. rewrite wrap64_id in R |- * by lia. lia.
    - unfold UnRegister. destruct (objectToID m o) as [i|] eqn:E; [|split; [exact H|lia]].
      split; [|cbn; lia]. unfold below; cbn; unfold put. split; [exact H0|]. split; intros x i'.
      + destruct (Nat.eqb_spec x o); [discriminate|apply H1].
      + destruct (peqb_ok x (ptr o)); [intro Q; injection Q as <-; eauto | apply H2].
    - unfold SetID. destruct (inc_getID a) as [i|] eqn:E; [|split; [exact H|lia]].
      destruct (setObjectID_below m o i) as [B R]; [auto|exact H|]. split; [exact B|lia].
    - unfold Clear, below; cbn. split; [|lia]. split; [exact H0|]. split; intros ? ? Q; discriminate.
  Qed.

  Lemma run_app (m : imgr P) h h' : run m (h ++ h') = run (run m h) h'.
  Proof. apply fold_left_app. Qed.

  Lemma run_below h M :
    0 <= M -> (forall o a i, In (OSetID o a) h -> inc_getID a = Some i -> i < M) -> M + zlen h < 2 ^ 63 ->
    below (run inc_New h) /\ gen (run inc_New h) <= M + zlen h.
  Proof.
    intro HM. induction h as [|op h IH] using rev_ind; intros Hs Hl.
    - split; [|cbn; change (zlen (@nil (idop goval))) with 0; lia].
      split; [cbn; lia|]. split; intros ? ? Q; discriminate.
    - rewrite zlen_app, zlen_cons in Hl. change (zlen (@nil (idop goval))) with 0 in Hl.
      destruct IH as [B R]; [intros o a i Hin; apply (Hs o a i), in_or_app; now left | lia|].
      rewrite run_app, zlen_app, zlen_cons. change (zlen (@nil (idop goval))) with 0.
      change (run (run inc_New h) [op]) with (step (run inc_New h) op).
      destruct (step_below (run inc_New h) op B) as (B' & R1 & R2); [lia| |].
      + destruct op; auto. intros i Q. assert (i < M) by (eapply Hs; [apply in_or_app; right; now left|exact Q]).
        pose proof (zlen_nonneg h); lia.
      + split; [exact B'|]. destruct op as [o|o|o a|]; try lia.
        destruct (inc_getID a) as [i|] eqn:Q; [|lia].
        assert (i < M) by (eapply Hs; [apply in_or_app; right; now left|exact Q]).
        pose proof (zlen_nonneg h); lia.
  Qed.

  Lemma no_overflow_prefix h h' : no_overflow (h ++ h') -> no_overflow h.
  Proof.
    intros (M & H0 & H1 & H2). exists M. rewrite zlen_app in H2. pose proof (zlen_nonneg h').
    split; [exact H0|]. split; [|lia]. intros o a i Hin; apply (H1 o a i), in_or_app; now left.
  Qed.
  Lemma no_overflow_below h : no_overflow h -> below (run inc_New h) /\ gen (run inc_New h) < 2 ^ 63.
  Proof. intros (M & H0 & H1 & H2). destruct (run_below h M H0 H1 H2). split; [assumption|lia]. Qed.

  Lemma gen_mono h h' : no_overflow (h ++ h') -> gen (run inc_New h) <= gen (run inc_New (h ++ h')).
  Proof.
    induction h' as [|op h' IH] using rev_ind; intro N.
    - rewrite app_nil_r; lia.
    - rewrite app_assoc in N |- *. pose proof (no_overflow_prefix _ _ N) as N'.
      specialize (IH N'). destruct N as (M & H0 & H1 & H2). rewrite zlen_app, zlen_cons in H2.
      change (zlen (@nil (idop goval))) with 0 in H2.
      destruct (run_below (h ++ h') M H0) as [B R]; [intros o a i Hin; apply (H1 o a i), in_or_app; now left|lia|].
      rewrite run_app. change (run (run inc_New (h ++ h')) [op]) with (step (run inc_New (h ++ h')) op).
      destruct (step_below _ op B) as (_ & R1 & _); [lia| |lia].
      destruct op; auto. intros i Q. assert (i < M) by (eapply H1; [apply in_or_app; right; now left|exact Q]).
      pose proof (zlen_nonneg (h ++ h')); lia.
  Qed.

  (** ids generated by Register were never in use *)
  Theorem generated_fresh h o :
    no_overflow (h ++ [ORegister o]) ->
    GetID (run inc_New h) o = None -> GetDetachedID ptr (run inc_New h) o = None ->
    exists i, GetID (run inc_New (h ++ [ORegister o])) o = Some i /\
      (forall h1 h2, h = h1 ++ h2 -> forall o', GetID (run inc_New h1) o' <> Some i /\ GetDetachedID ptr (run inc_New h1) o' <> Some i).
  Proof.
    intros N H1 H2. pose proof (no_overflow_prefix _ _ N) as N'.
    assert (L : below (run inc_New h) /\ gen (run inc_New h) < 2 ^ 63 - 1).
    { destruct N as (M & Q0 & Q1 & Q2). rewrite zlen_app, zlen_cons in Q2. change (zlen (@nil (idop goval))) with 0 in Q2.
      destruct (run_below h M Q0) as [B R]; [intros o' a i Hin; apply (Q1 o' a i), in_or_app; now left|lia|].
      split; [exact B|lia]. }
    exists (gen (run inc_New h)). split.
    - rewrite run_app. unfold GetID, GetDetachedID in *. cbn -[inc_run]. unfold inc_run at 1; cbn -[inc_run].
      unfold Register. rewrite H1, H2. cbn -[inc_run]. unfold setObjectID. cbn -[inc_run]. rewrite H1.
      unfold inc_isValidID. destruct L as [(L & _) _]. destruct (Z.leb_spec 0 (gen (run inc_New h))); [|lia].
      cbn -[inc_run]. unfold put. now rewrite Nat.eqb_refl.
    - intros h1 h2 -> o'.
      pose proof (gen_mono h1 h2 N') as G1.
      destruct (no_overflow_below h1) as [(_ & B1 & B2) _]; [now apply no_overflow_prefix in N'|].
      split; intro Q; [apply B1 in Q|apply B2 in Q]; lia.
  Qed.

  Theorem incremental_good h :
    (forall a b, ptr a = ptr b -> a = b) ->
    no_overflow h -> considerate Z.eqb peqb inc_newID inc_isValidID inc_getID inc_setID ptr inc_New h ->
    good ptr (run inc_New h).
  Proof.
    intros Hp N. assert (K : forall h1 h2, h = h1 ++ h2 ->
      considerate Z.eqb peqb inc_newID inc_isValidID inc_getID inc_setID ptr inc_New h ->
      good ptr (run inc_New h1) /\ considerate Z.eqb peqb inc_newID inc_isValidID inc_getID inc_setID ptr (run inc_New h1) h2).
    { induction h1 as [|op h1 IH] using rev_ind; intros h2 E C.
      - cbn in E; subst h2. split; [apply good_New | exact C].
      - rewrite <- app_assoc in E. cbn in E. destruct (IH _ E C) as [H1 [C1 C2]].
        rewrite run_app. change (run (run inc_New h1) [op]) with (step (run inc_New h1) op).
        split; [|exact C2]. eapply good_step; [exact ZR|exact peqb_ok|exact Hp|exact H1|exact C1|].
        destruct op as [o|o|o a|]; auto. intros _ _. cbn.
        destruct (no_overflow_below h1) as [(_ & B1 & B2) _]; [subst h; now apply no_overflow_prefix in N|].
        split; intros o' Q; [apply B1 in Q|apply B2 in Q]; lia. }
    intro C. now apply (K h []); [rewrite app_nil_r|].
  Qed.
End Incremental.

(** ** ids kept in the objects *)
Section Attr.
  Context {S : Type} (seqb : S -> S -> bool) (hasID : nat -> bool).
  Hypothesis seqb_ok : forall a b, reflect (a = b) (seqb a b).
  Notation omgr := (omgr (S:=S)).
  Implicit Types m : omgr.

  Ltac cases :=
    repeat match goal with
    | H : context [Nat.eqb ?a ?b] |- _ => destruct (Nat.eqb_spec a b)
    | |- context [Nat.eqb ?a ?b] => destruct (Nat.eqb_spec a b)
    | H : context [seqb ?a ?b] |- _ => destruct (seqb_ok a b)
    | |- context [seqb ?a ?b] => destruct (seqb_ok a b)
    end.

  Definition ogood m :=
    resolution_sound (oGetID m) (oGetEObject m) /\ ids_resolve (oGetID m) (oGetEObject m) /\
    (forall o i, oGetID m o = Some i -> attr m o = Some i).

  Lemma ogood_step m op m' :
    ogood m ->
    match op with
    | OORegister o => forall i, attr m o = Some i -> ofree m o i
    | OOSetID o (Some i) => ofree m o i
    | OAttr o i => oGetID m o = None
    | _ => True
    end ->
    ostep seqb hasID m op = Some m' -> ogood m'.
  Proof.
    intros (H1 & H2 & H3) C R. unfold ogood, resolution_sound, ids_resolve, oGetID, oGetEObject, ofree in *.
    destruct op as [o|o|o i| |o i]; cbn in R.
    - injection R as <-. unfold oRegister, GetEObjectID. destruct (hasID o); [|auto].
      destruct (attr m o) as [i|] eqn:E; [|auto]. specialize (C i eq_refl). cbn; unfold oGetID in C.
      split; [|split]; intros o' i'; unfold put; cases; subst; intro Q; try congruence; auto.
      + apply H1, H3 in Q. congruence.
      + apply C in Q; congruence.
    - injection R as <-. unfold oUnRegister. destruct (oObjectToID m o) as [i|] eqn:E; [|auto].
      cbn. split; [|split]; intros o' i'; unfold put; cases; subst; intro Q; try congruence; auto.
      + apply H1 in Q. congruence.
      + apply H2 in Q, E. congruence.
    - unfold oSetID in R. destruct (hasID o); [|discriminate]. injection R as <-. cbn. unfold oGetID in C.
      destruct i as [i|]; destruct (oObjectToID m o) as [old|] eqn:E;
        (split; [|split]); intros o' i'; unfold put; cases; subst; intro Q; try congruence; auto;
        first [apply H1 in Q; congruence | apply C in Q; congruence | apply H2 in Q, E; congruence].
    - injection R as <-. unfold oClear, oNew; cbn. repeat split; intros ? ? Q; discriminate.
    - injection R as <-. cbn. unfold oGetID in C. split; [exact H1|split; [exact H2|]].
      intros o' i'. unfold put. cases; subst; intro Q; [congruence|auto].
  Qed.

  Theorem oconsiderate_good a h m :
    oconsiderate seqb hasID (oNew a) h -> orun seqb hasID (oNew a) h = Some m -> ogood m.
  Proof.
    assert (H : ogood (oNew a)) by (repeat split; intros ? ? Q; discriminate).
    revert H. generalize (oNew (S:=S) a) as m0.
    induction h as [|op h IH]; intros m0 H C R.
    - now injection R as <-.
    - cbn in C, R. destruct C as [C C']. destruct (ostep seqb hasID m0 op) as [m1|] eqn:E; [|discriminate].
      cbn in R. apply (IH m1); [|exact C'|exact R]. exact (ogood_step m0 op m1 H C E).
  Qed.
  Lemma ogood_unique m : ogood m -> ids_unique (oGetID m).
  Proof. intros (_ & H & _) o o' i Q Q'. apply H in Q, Q'. congruence. Qed.
End Attr.
