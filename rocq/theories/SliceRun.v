From Verif Require Import Base ListModel ListProofs SliceModel SliceSpec SliceProofs SliceOps.

Section Run.
  Context {A : Type} (eqb : A -> A -> bool) (nilv : A) (grow : nat -> nat -> nat).
  Notation world := (world A). Notation wstep := (wstep eqb nilv grow). Notation reachW := (reachW eqb nilv grow).
  Notation nothing := (fun _ _ : nat => False).

  Record sound (w : world) : Prop := {
    so_lists : forall h s u, lists w h = Some (s, u) -> valid (memory w) s;
    so_vars : forall v, valid (memory w) (vars w v);
    so_apart : forall h s u h' s' u', h <> h' -> lists w h = Some (s, u) -> lists w h' = Some (s', u') -> disjoint s s' }.

  Lemma disjoint_sym s t : disjoint s t -> disjoint t s.
  Proof. unfold disjoint. intuition. Qed.
  Lemma setAt_eq {X} (g : nat -> X) k v : setAt g k v k = v.
  Proof. unfold setAt. now rewrite Nat.eqb_refl. Qed.
  Lemma setAt_ne {X} (g : nat -> X) k v m : m <> k -> setAt g k v m = g m.
  Proof. unfold setAt. destruct (Nat.eqb_spec m k); [contradiction|reflexivity]. Qed.

  (** a list is replaced and memory written outside of what others can see *)
  Lemma sound_set w h s u H W (Hs : sound w) : frame (memory w) H W -> valid H s ->
    (forall h' s' u', h' <> h -> lists w h' = Some (s', u') -> disjoint s s') ->
    sound (World H (setAt (lists w) h (Some (s, u))) (vars w)).
  Proof.
    destruct Hs as [L V P]. intros F Vs D. constructor; cbn.
    - intros k t x E. unfold setAt in E. destruct (Nat.eqb_spec k h); [inversion E; now subst|]. eapply valid_frame; eauto.
    - intro v. eapply valid_frame; eauto.
    - intros k t x k' t' x' Hk E E'. unfold setAt in *. destruct (Nat.eqb_spec k h) as [->|N], (Nat.eqb_spec k' h) as [->|N'].
      + contradiction.
      + inversion E; subst. eauto.
      + inversion E'; subst. apply disjoint_sym. eauto.
      + exact (P _ _ _ _ _ _ Hk E E').
  Qed.
  Lemma fresh_disjoint w h s u t : sound w -> lists w h = Some (s, u) -> (next (memory w) <= arr t)%nat -> disjoint t s.
  Proof. intros Hs E N. left. pose proof (v_arr _ _ (so_lists _ Hs _ _ _ E)). lia. Qed.

  (** ** a call, against the call of the plain list *)
  Lemma lookup_good (w : world) h s u o (o' : hop A argument) : sound w -> lists w h = Some (s, u) -> lookup (argument_of w h) o = Some o' ->
    (forall c, In c (args o') -> good_arg (memory w) s c) /\ plainA (memory w) o' = plain w h o.
  Proof.
    intros Hs E El. assert (Hg : forall c d, argument_of w h c = Some d -> good_arg (memory w) s d
      /\ coll_of (memory w) d = (if Nat.eqb c h then Self else Ext (match contentsOf w c with Some l => l | None => [] end))).
    { intros c d Ed. unfold argument_of, contentsOf in *. destruct (Nat.eqb_spec c h) as [->|N]; [inversion Ed; subst; now split|].
      destruct (lists w c) as [[t x]|] eqn:Ec; [|discriminate]. inversion Ed; subst. cbn. split; [|reflexivity].
      split; [exact (so_lists _ Hs _ _ _ Ec)|]. exact (so_apart _ Hs _ _ _ _ _ _ (not_eq_sym N) E Ec). }
    destruct o; cbn in El; try (inversion El; subst; cbn; split; [tauto|reflexivity]);
      destruct (argument_of w h c) as [d|] eqn:Ed; try discriminate; inversion El; subst; destruct (Hg _ _ Ed) as [G1 G2]; cbn;
      (split; [intros x [<-|[]]; assumption|now rewrite G2]).
  Qed.
  Lemma lookup_some (w : world) h o : (forall c, In c (names o) -> lists w c <> None) -> exists o' : hop A argument, lookup (argument_of w h) o = Some o'.
  Proof.
    intro Hf. assert (Hg : forall c, lists w c <> None -> exists d, argument_of w h c = Some d).
    { intros c Hc. unfold argument_of. destruct (Nat.eqb c h); [eauto|]. destruct (lists w c) as [[t x]|]; [cbn; eauto|contradiction]. }
    destruct o; cbn in *; eauto; destruct (Hg c (Hf c (or_introl eq_refl))) as [d ->]; cbn; eauto.
  Qed.
  (** cells that a call may write, seen from a slice that no list overwrites *)
  Definition beside (t s : slice) : Prop := disjoint t s \/ (same_place t s /\ (len t <= len s)%nat).
  Lemma beside_refl s : beside s s.
  Proof. right. split; [repeat split|lia]. Qed.
  Lemma extra_beside (w : world) h s u o (o' : hop A argument) t : sound w -> lists w h = Some (s, u) -> lookup (argument_of w h) o = Some o' ->
    (len t <= cap t)%nat -> (forall k r x, k <> h -> lists w k = Some (r, x) -> beside t r) ->
    forall i, (i < len t)%nat -> ~ extra o' (arr t) (off t + i)%nat.
  Proof.
    intros Hs E El Lt Ht i Hi. destruct o; cbn in El; try (inversion El; subst; cbn; tauto);
      destruct (argument_of w h c) as [d|] eqn:Ed; try discriminate; inversion El; subst; cbn; try tauto.
    destruct d as [d|]; [|tauto]. unfold argument_of in Ed. destruct (Nat.eqb_spec c h) as [->|Nc]; [discriminate|].
    destruct (lists w c) as [[t' x']|] eqn:Ec; [|discriminate]. inversion Ed; subst. unfold spare.
    intros [E1 Hr]. destruct (Ht _ _ _ Nc Ec) as [D|[(P1 & P2 & P3) L]]; [unfold disjoint in D; lia|lia].
  Qed.

  Lemma call_ok w h o s u : sound w -> lists w h = Some (s, u) -> (forall c, In c (names o) -> lists w c <> None) ->
    match wstep w (Call h o), step eqb nilv u (read (memory w) s) (plain w h o) with
    | Some (w', Some r), Ret (l, _) r' =>
        r = r' /\ contentsOf w' h = Some l /\ uniqueOf w' h = u /\ sound w' /\ vars w' = vars w
        /\ (forall h', h' <> h -> lists w' h' = lists w h' /\ contentsOf w' h' = contentsOf w h')
        /\ (forall t, valid (memory w) t -> disjoint s t -> (forall k r x, k <> h -> lists w k = Some (r, x) -> beside t r) ->
             read (memory w') t = read (memory w) t)
        /\ (exists s', lists w' h = Some (s', u) /\ forall t, valid (memory w) t -> disjoint s t -> disjoint s' t)
    | None, Panic => True
    | _, _ => False
    end.
  Proof.
    intros Hs E Hf. cbn [SliceModel.wstep]. rewrite E. cbn [obind]. destruct (lookup_some w h o Hf) as [o' El]. rewrite El. cbn [obind].
    destruct (lookup_good _ _ _ _ _ _ Hs E El) as [Hg Hp]. pose proof (so_lists _ Hs _ _ _ E) as V.
    pose proof (hstep_ok nilv grow eqb u (memory w) s o' V Hg) as Hr. rewrite Hp in Hr.
    destruct (hstep eqb nilv grow u (memory w) s o') as [[H' s'] r|], (step eqb nilv u (read (memory w) s) (plain w h o)) as [[l cb] r'|];
      cbn [refines] in Hr; try contradiction; [|exact Logic.I].
    destruct Hr as [-> Hm]. split; [reflexivity|]. unfold contentsOf, uniqueOf. cbn. rewrite setAt_eq, (mv_read _ _ _ _ _ _ Hm).
    split; [reflexivity|]. split; [reflexivity|]. split; [|split; [reflexivity|split; [|split]]].
    - eapply sound_set; [assumption|exact (mv_frame _ _ _ _ _ _ Hm)|exact (mv_valid _ _ _ _ _ _ Hm)|].
      intros k t x N Et. eapply moved_disjoint; [exact Hm|eapply so_lists; eassumption|]. exact (so_apart _ Hs _ _ _ _ _ _ (not_eq_sym N) E Et).
    - intros k N. rewrite setAt_ne by assumption. split; [reflexivity|]. destruct (lists w k) as [[t x]|] eqn:Et; [|reflexivity].
      f_equal. eapply moved_other; [exact Hm|eapply so_lists; eassumption|exact (so_apart _ Hs _ _ _ _ _ _ (not_eq_sym N) E Et)|].
      eapply extra_beside; [exact Hs|exact E|exact El|apply (so_lists _ Hs _ _ _ Et)|]. intros k' r x' N' Er.
      destruct (Nat.eq_dec k' k) as [->|Nk]; [rewrite Et in Er; inversion Er; subst; apply beside_refl|]. left. exact (so_apart _ Hs _ _ _ _ _ _ (not_eq_sym Nk) Et Er).
    - intros t Vt D Hb. eapply moved_other; [exact Hm|exact Vt|exact D|]. eapply extra_beside; [exact Hs|exact E|exact El|apply Vt|exact Hb].
    - exists s'. split; [reflexivity|]. intros t Vt D. eapply moved_disjoint; eassumption.
  Qed.

  (** the other operations of the program *)
  Lemma other_ok w o w' r : sound w -> fair w o -> (forall h o', o <> Call h o') -> wstep w o = Some (w', r) ->
    sound w' /\ frame (memory w) (memory w') nothing.
  Proof.
    intros Hs Hf Hn Ew. destruct o as [h u|h u v|v l n|v h|h o]; cbn in Ew.
    - inversion Ew; subst; clear Ew. pose proof (alloc_ok nilv (memory w) [] 0 (le_n _)) as Ha. cbn in Ha.
      destruct Ha as (_ & Vt & F & N & _). split; [|exact F]. eapply sound_set; [assumption|exact F|exact Vt|].
      intros. eapply fresh_disjoint; [exact Hs|eassumption|exact N].
    - inversion Ew; subst; clear Ew. split; [|apply frame_refl]. eapply sound_set; [assumption|apply (frame_refl _ nothing)|apply Hs|]. cbn in Hf. eauto.
    - inversion Ew; subst; clear Ew. pose proof (alloc_ok nilv (memory w) l (length l + n) ltac:(lia)) as Ha. cbn in Ha.
      destruct Ha as (_ & Vt & F & N & _). split; [|exact F]. destruct Hs as [L V P]. constructor; cbn.
      + intros. eapply valid_frame; eauto.
      + intro k. unfold setAt. destruct (Nat.eqb k v); [exact Vt|]. eapply valid_frame; eauto.
      + exact P.
    - destruct (lists w h) as [[s u]|] eqn:E; [|discriminate]. inversion Ew; subst; clear Ew. split; [|apply frame_refl].
      destruct Hs as [L V P]. constructor; cbn; auto. intro k. unfold setAt. destruct (Nat.eqb k v); [eauto|auto].
    - now destruct (Hn h o).
  Qed.
  Lemma step_sound w o w' r : sound w -> fair w o -> wstep w o = Some (w', r) -> sound w'.
  Proof.
    intros Hs Hf Ew. destruct o as [h u|h u v|v l n|v h|h o].
    1-4: eapply other_ok; try eassumption; intros; discriminate.
    destruct (lists w h) as [[s u]|] eqn:E; [|cbn in Ew; rewrite E in Ew; discriminate].
    pose proof (call_ok w h o s u Hs E Hf) as Hc. rewrite Ew in Hc. destruct r as [r|]; [|contradiction].
    destruct (step eqb nilv u (read (memory w) s) (plain w h o)) as [[l cb] r'|]; [apply Hc|contradiction].
  Qed.
  Lemma start_sound : sound (@start A).
  Proof. constructor; cbn; try discriminate. intro v. constructor; cbn; lia. Qed.
  Lemma reach_sound w : reachW w -> sound w.
  Proof. induction 1 as [|w o w' r Hr IH Hf Ew]; [apply start_sound|]. eapply step_sound; eassumption. Qed.

  (** ** C94 *)
  Lemma calls_are_plain w h o l : reachW w -> contentsOf w h = Some l -> fair w (Call h o) ->
    match wstep w (Call h o), step eqb nilv (uniqueOf w h) l (plain w h o) with
    | Some (w', Some r), Ret (l', _) r' =>
        r = r' /\ contentsOf w' h = Some l' /\ uniqueOf w' h = uniqueOf w h
        /\ forall h', h' <> h -> contentsOf w' h' = contentsOf w h' /\ uniqueOf w' h' = uniqueOf w h'
    | None, Panic => True
    | _, _ => False
    end.
  Proof.
    intros Hr El Hf. apply reach_sound in Hr. unfold contentsOf in El. destruct (lists w h) as [[s u]|] eqn:E; [|discriminate].
    inversion El; subst l. pose proof (call_ok w h o s u Hr E Hf) as Hc. replace (uniqueOf w h) with u by (unfold uniqueOf; now rewrite E).
    destruct (wstep w (Call h o)) as [[w' [r|]]|], (step eqb nilv u (read (memory w) s) (plain w h o)) as [[l cb] r'|]; try exact Hc.
    destruct Hc as (? & ? & ? & _ & _ & Ho & _ & _). repeat (split; [assumption|]). intros h' N. destruct (Ho h' N) as [E1 E2].
    split; [exact E2|]. unfold uniqueOf. now rewrite E1.
  Qed.
  Lemma creations_are_plain w o w' r : reachW w -> fair w o -> wstep w o = Some (w', r) ->
    match o with
    | New h u => contentsOf w' h = Some [] /\ uniqueOf w' h = u /\ forall h', h' <> h -> contentsOf w' h' = contentsOf w h'
    | NewFrom h u v => contentsOf w' h = Some (valueOf w v) /\ uniqueOf w' h = u /\ forall h', h' <> h -> contentsOf w' h' = contentsOf w h'
    | Make v l _ => valueOf w' v = l /\ forall h', contentsOf w' h' = contentsOf w h'
    | Take v h => contentsOf w h = Some (valueOf w' v) /\ forall h', contentsOf w' h' = contentsOf w h'
    | Call _ _ => True
    end.
  Proof.
    intros Hr Hf Ew. apply reach_sound in Hr.
    assert (Hkeep : (forall h o', o <> Call h o') -> forall h', lists w' h' = lists w h' -> contentsOf w' h' = contentsOf w h').
    { intros Hn h' Eh. destruct (other_ok _ _ _ _ Hr Hf Hn Ew) as [_ F]. unfold contentsOf. rewrite Eh. destruct (lists w h') as [[s u]|] eqn:E; [|reflexivity].
      f_equal. eapply read_frame; [exact F|apply (so_lists _ Hr _ _ _ E)|auto]. }
    destruct o as [h u|h u v|v l n|v h|h o]; [| | | |exact Logic.I]; specialize (Hkeep ltac:(discriminate)); cbn in Ew.
    - inversion Ew; subst; clear Ew. unfold contentsOf at 1, uniqueOf. cbn. rewrite setAt_eq. split; [reflexivity|]. split; [reflexivity|].
      intros h' N. apply Hkeep. cbn. now apply setAt_ne.
    - inversion Ew; subst; clear Ew. unfold contentsOf at 1, uniqueOf. cbn. rewrite setAt_eq. split; [reflexivity|]. split; [reflexivity|].
      intros h' N. apply Hkeep. cbn. now apply setAt_ne.
    - pose proof (alloc_ok nilv (memory w) l (length l + n) ltac:(lia)) as Ha.
      cbn in Ha. destruct Ha as (R & _). inversion Ew; subst; clear Ew.
      unfold valueOf at 1. cbn [vars memory]. rewrite setAt_eq. split; [exact R|]. intro h'. now apply Hkeep.
    - destruct (lists w h) as [[s u]|] eqn:E; [|discriminate]. inversion Ew; subst; clear Ew. split.
      + unfold contentsOf, valueOf. cbn. now rewrite E, setAt_eq.
      + intro h'. now apply Hkeep.
  Qed.

  (** ** C47: what ToArray returned, until the list is called again *)
  Record kept (w : world) (v h : nat) : Prop := {
    ke_others : forall k s u, k <> h -> lists w k = Some (s, u) -> disjoint (vars w v) s;
    ke_list : forall s u, lists w h = Some (s, u) -> beside (vars w v) s }.
  Lemma kept_beside w v h k s u : kept w v h -> lists w k = Some (s, u) -> beside (vars w v) s.
  Proof. intros [K1 K2] E. destruct (Nat.eq_dec k h) as [->|N]; [eauto|]. left. eauto. Qed.

  Lemma quiet_step v h w o w' r : sound w -> kept w v h -> fair w o -> ~ disturbs w v h o -> ~ assigns v o ->
    wstep w o = Some (w', r) -> valueOf w' v = valueOf w v /\ kept w' v h.
  Proof.
    intros Hs Hk Hf Hd Has Ew. pose proof (so_vars _ Hs v) as Vv.
    assert (Hkeep : (forall h o', o <> Call h o') -> vars w' v = vars w v -> valueOf w' v = valueOf w v).
    { intros Hn Ev'. destruct (other_ok _ _ _ _ Hs Hf Hn Ew) as [_ F]. unfold valueOf. rewrite Ev'. eapply read_frame; [exact F|apply Vv|auto]. }
    assert (Hset : forall H k s u W, w' = World H (setAt (lists w) k (Some (s, u))) W -> W v = vars w v -> disjoint (vars w v) s -> kept w' v h).
    { intros H k s u W -> EW D. constructor; cbn.
      - intros k' s' u' N E. rewrite EW. unfold setAt in E. destruct (Nat.eqb k' k); [inversion E; now subst|]. exact (ke_others _ _ _ Hk _ _ _ N E).
      - intros s' u' E. rewrite EW. unfold setAt in E. destruct (Nat.eqb h k); [inversion E; subst; now left|]. exact (ke_list _ _ _ Hk _ _ E). }
    destruct o as [h' u'|h' u' v'|v' l n|v' h'|h' o].
    - specialize (Hkeep ltac:(discriminate)). cbn in *. inversion Ew; subst; clear Ew. cbn in *. split; [auto|].
      eapply Hset; [reflexivity|reflexivity|]. left. cbn. pose proof (v_arr _ _ Vv). lia.
    - specialize (Hkeep ltac:(discriminate)). cbn in *. inversion Ew; subst; clear Ew. cbn in *. split; [auto|].
      eapply Hset; [reflexivity|reflexivity|]. unfold disjoint in *. lia.
    - specialize (Hkeep ltac:(discriminate)). cbn in *. inversion Ew; subst; clear Ew. cbn in *. rewrite setAt_ne in Hkeep by auto. split; [auto|].
      destruct Hk as [K1 K2]. constructor; cbn; rewrite setAt_ne by auto; assumption.
    - specialize (Hkeep ltac:(discriminate)). cbn in *. destruct (lists w h') as [[t x]|]; [|discriminate]. inversion Ew; subst; clear Ew. cbn in *.
      rewrite setAt_ne in Hkeep by auto. split; [auto|]. destruct Hk as [K1 K2]. constructor; cbn; rewrite setAt_ne by auto; assumption.
    - cbn [disturbs] in Hd. destruct (lists w h') as [[t x]|] eqn:Et; [|cbn in Ew; rewrite Et in Ew; discriminate].
      assert (Hother : disjoint t (vars w v) -> valueOf w' v = valueOf w v /\ kept w' v h).
      { intro D. pose proof (call_ok w h' o t x Hs Et Hf) as Hc. rewrite Ew in Hc. destruct r as [r|]; [|contradiction].
        destruct (step eqb nilv x (read (memory w) t) (plain w h' o)) as [[l cb] r'|]; [|contradiction].
        destruct Hc as (_ & _ & _ & _ & Hv & Ho & Hval & s' & Es & Hd'). unfold valueOf. rewrite Hv. split.
        - apply Hval; auto. intros k s u _ E. exact (kept_beside _ _ _ _ _ _ Hk E).
        - constructor; rewrite Hv; intros.
          + destruct (Nat.eq_dec k h') as [->|N]; [rewrite Es in H0; inversion H0; subst; apply disjoint_sym; auto|].
            rewrite (proj1 (Ho k N)) in H0. exact (ke_others _ _ _ Hk _ _ _ H H0).
          + destruct (Nat.eq_dec h h') as [->|N]; [rewrite Es in H; inversion H; subst; left; apply disjoint_sym; auto|].
            rewrite (proj1 (Ho h N)) in H. exact (ke_list _ _ _ Hk _ _ H). }
      destruct (Nat.eq_dec h' h) as [->|N]; [|apply Hother, disjoint_sym; exact (ke_others _ _ _ Hk _ _ _ N Et)].
      destruct (ke_list _ _ _ Hk _ _ Et) as [D|[Sp L]]; [apply Hother, disjoint_sym; exact D|].
      assert (Happ : appends o = true) by (destruct (appends o); [reflexivity|tauto]).
      cbn [SliceModel.wstep] in Ew. rewrite Et in Ew. cbn [obind] in Ew. destruct (lookup (argument_of w h) o) as [o'|] eqn:El; [|discriminate].
      cbn [obind] in Ew. destruct (hstep eqb nilv grow x (memory w) t o') as [[H' s'] r'|] eqn:Eh; [|discriminate].
      assert (Happ' : appendsA o' = true).
      { destruct o; cbn in El; try discriminate Happ; try (inversion El; subst; reflexivity).
        destruct (argument_of w h c); [|discriminate]. inversion El; subst. reflexivity. }
      destruct (hstep_appends nilv grow eqb x _ _ _ _ _ _ (so_lists _ Hs _ _ _ Et) Happ' Eh) as [F G]. inversion Ew; subst; clear Ew. cbn in *. split.
      + unfold valueOf. cbn. eapply read_frame; [exact F|apply Vv|]. intros i Hi [_ Hr]. destruct Sp as (E1 & E2 & E3). lia.
      + constructor; cbn; intros.
        * rewrite setAt_ne in H0 by assumption. exact (ke_others _ _ _ Hk _ _ _ H H0).
        * rewrite setAt_eq in H. inversion H; subst. destruct G as [[Sp' L']|G]; [right; split; [exact (same_trans _ _ _ Sp Sp')|lia]|].
          left. left. pose proof (v_arr _ _ Vv). lia.
  Qed.
  Lemma quiet_value v h w1 w2 : quietly eqb nilv grow v h w1 w2 -> sound w1 -> kept w1 v h -> valueOf w2 v = valueOf w1 v.
  Proof.
    intro Hq. induction Hq as [w|w o w1 r w2 Hf Hd Ha Ew Hq IH]; intros Hs Hk; [reflexivity|].
    destruct (quiet_step _ _ _ _ _ _ Hs Hk Hf Hd Ha Ew) as (E1 & E2). rewrite <- E1. apply IH; [eapply step_sound; eassumption|assumption].
  Qed.
  Lemma taken_stays w v h w1 r w2 : reachW w -> wstep w (Take v h) = Some (w1, r) -> quietly eqb nilv grow v h w1 w2 ->
    contentsOf w h = Some (valueOf w2 v).
  Proof.
    intros Hr Ew Hq. pose proof (reach_sound _ Hr) as Hs0.
    assert (Hs : sound w1) by (eapply step_sound; [exact Hs0| |exact Ew]; exact Logic.I).
    destruct (creations_are_plain w (Take v h) w1 r Hr Logic.I Ew) as [Ec _]. rewrite Ec. f_equal.
    cbn in Ew. destruct (lists w h) as [[s u]|] eqn:E; [|discriminate]. inversion Ew; subst; clear Ew.
    symmetry. apply quiet_value with (1 := Hq); [assumption|]. constructor; cbn; rewrite setAt_eq.
    - intros k t x N Et. exact (so_apart _ Hs0 _ _ _ _ _ _ (not_eq_sym N) E Et).
    - intros t x Et. rewrite E in Et. inversion Et; subst. apply beside_refl.
  Qed.
End Run.

Lemma calls_are_sequences (A : Type) (eqb : A -> A -> bool) (nilv : A) (grow : nat -> nat -> nat) :
  (forall x y, reflect (x = y) (eqb x y)) ->
  forall w h o l, reachW eqb nilv grow w -> contentsOf w h = Some l -> fair w (Call h o) ->
    (uniqueOf w h = true -> ListSpec.op_ok eqb l (plain w h o)) ->
    match wstep eqb nilv grow w (Call h o), ListSpec.spec_step eqb (uniqueOf w h) l (plain w h o) with
    | Some (w', Some r), Some (l', r') => r = r' /\ contentsOf w' h = Some l'
    | None, None => True
    | _, _ => False
    end.
Proof.
  intros He w h o l Hr El Hf Ho. pose proof (calls_are_plain eqb nilv grow w h o l Hr El Hf) as Hc.
  pose proof (step_agrees eqb nilv He (uniqueOf w h) l (plain w h o) Ho) as Ha.
  destruct (wstep eqb nilv grow w (Call h o)) as [[w' [r|]]|], (step eqb nilv (uniqueOf w h) l (plain w h o)) as [[l1 cb] r1|];
    try contradiction; destruct (ListSpec.spec_step eqb (uniqueOf w h) l (plain w h o)) as [[l2 r2]|]; cbn in Ha; try contradiction; auto.
  destruct Ha as [-> ->], Hc as (-> & -> & _). auto.
Qed.
