From Verif Require Import Base ListModel ListSpec ListProofs NotifyModel NotifyProofs CallbackProofs
  GraphModel GraphSpec GraphProofs GraphInv GraphSteps GraphAcyclic AdapterModel AdapterErase AdapterSpec AdapterWalk AdapterDispatch AdapterSummary AdapterEvents AdapterOps AdapterCalls AdapterMoves AdapterRest.

(** ** finitely many objects are in resources *)
Section Finite.
  Context (M : metamodel).
  Definition onlyin (L : list obj) (s : state) : Prop := forall x, internalResource s x <> None -> In x L.
  Definition keeps (m : option state) (L : list obj) : Prop := forall s', m = Some s' -> onlyin L s'.

  Lemma keeps_some s L : onlyin L s -> keeps (Some s) L.
  Proof. now intros H s' [= <-]. Qed.
  Lemma keeps_none L : keeps None L.
  Proof. discriminate. Qed.
  Lemma keeps_bind m k L : keeps m L -> (forall s, onlyin L s -> keeps (k s) L) -> keeps (obind m k) L.
  Proof. intros H1 H2 s'. destruct m as [s|]; cbn; [|discriminate]. apply H2. now apply H1. Qed.
  Lemma keeps_fold f l L : (forall s x, In x l -> onlyin L s -> keeps (f s x) L) -> forall s, onlyin L s -> keeps (foldM f l s) L.
  Proof.
    induction l as [|x l IH]; intros H s Hs; cbn [foldM]; [now apply keeps_some|].
    apply keeps_bind; [apply H; [now left|assumption]|]. intros s1 H1. apply IH; [|assumption]. intros. apply H; [now right|assumption].
  Qed.
  Lemma onlyin_none L s x : onlyin L s -> onlyin L (setResource s x None).
  Proof. intros H y. cbn. unfold upd. destruct (Nat.eqb y x); [congruence|apply H]. Qed.
  Lemma onlyin_some L s x r : In x L -> onlyin L s -> onlyin L (setResource s x r).
  Proof. intros Hx H y. cbn. unfold upd. destruct (Nat.eqb_spec y x); [now subst|apply H]. Qed.
  Lemma onlyin_same L s s' : internalResource s' = internalResource s -> onlyin L s -> onlyin L s'.
  Proof. intros E H x. rewrite E. apply H. Qed.

  Ltac keep := repeat first
    [ assumption
    | lazymatch goal with
      | |- keeps None _ => apply keeps_none
      | |- keeps (Some _) _ => apply keeps_some
      | |- onlyin _ (setResource _ _ None) => apply onlyin_none
      | |- onlyin _ (setSlot ?s _ _ _) => apply (onlyin_same _ s); [reflexivity|]
      | |- onlyin _ (setContainer ?s _ _ _) => apply (onlyin_same _ s); [reflexivity|]
      | |- keeps (obind ?m _) _ => first [ apply keeps_bind; [|intros ? ?] | let E := fresh in destruct m as [?|] eqn:E; cbn [obind] ]
      | |- keeps (when ?v _ _) _ => destruct v; cbn [when]
      | |- keeps (let '(_, _) := ?p in _) _ => destruct p
      | |- keeps (match ?x with _ => _ end) _ => destruct x
      | |- keeps (if ?x then _ else _) _ => destruct x
      | |- keeps (let x := _ in _) _ => cbv zeta
      end ].

  Lemma contentsStages_res st : forall s r, internalResource (contentsStages s r st) = internalResource s.
  Proof. induction st as [|[d cb] st IH]; intros s r; cbn; [reflexivity|]. rewrite IH. reflexivity. Qed.
  Lemma contentsRemove_keeps L s r x : onlyin L s -> keeps (contentsRemove s r x) L.
  Proof.
    intros H s'. unfold contentsRemove. destruct (removeWithNotification (contents s r) x) as [[l cb]|]; cbn [obind]; [|discriminate].
    intros [= <-]. apply (onlyin_same _ s); [|assumption]. apply contentsStages_res.
  Qed.
  Lemma basicSetContainer_keeps L s x c id : onlyin L s -> keeps (basicSetContainer M s x c id) L.
  Proof. intro H. unfold basicSetContainer. keep; now apply contentsRemove_keeps. Qed.
  Lemma inverseRemove_keeps L s x o id : onlyin L s -> keeps (inverseRemove M s x o id) L.
  Proof.
    intro H. unfold inverseRemove, basicInverseRemove. keep; try (apply basicSetContainer_keeps; assumption).
  Qed.
  Lemma removeFromContainer_keeps L s x : onlyin L s -> keeps (removeFromContainer M s x) L.
  Proof. intro H. unfold removeFromContainer. keep; now apply inverseRemove_keeps. Qed.
  Lemma inverseAdd_keeps L s x o id : onlyin L s -> keeps (inverseAdd M s x o id) L.
  Proof.
    intro H. unfold inverseAdd, basicInverseAdd. keep;
      try (apply basicSetContainer_keeps; assumption); try (apply removeFromContainer_keeps; assumption);
      try (apply inverseRemove_keeps; assumption).
  Qed.
  Lemma listInverseRemove_keeps L s o f x : onlyin L s -> keeps (listInverseRemove M s o f x) L.
  Proof. intro H. unfold listInverseRemove. keep; now apply inverseRemove_keeps. Qed.
  Lemma listInverseAdd_keeps L s o f x : onlyin L s -> keeps (listInverseAdd M s o f x) L.
  Proof. intro H. unfold listInverseAdd. keep; now apply inverseAdd_keeps. Qed.
  Lemma eSet_keeps L s o f v : onlyin L s -> keeps (eSet M s o f v) L.
  Proof.
    intro H. unfold eSet. keep; try (apply basicSetContainer_keeps; assumption); try (apply removeFromContainer_keeps; assumption);
      try (apply inverseRemove_keeps; assumption); try (apply inverseAdd_keeps; assumption).
  Qed.
  Lemma eUnset_keeps L s o f : onlyin L s -> keeps (eUnset M s o f) L.
  Proof.
    intro H. unfold eUnset. keep; try (apply basicSetContainer_keeps; assumption); try (apply removeFromContainer_keeps; assumption);
      try (apply inverseRemove_keeps; assumption).
  Qed.
  Lemma listOp_keeps L s o f p : onlyin L s -> keeps (listOp M s o f p) L.
  Proof.
    intro H. unfold listOp. destruct (list_effect (slot s o f) p) as [[[st Rm] Ad]|]; cbn [obind]; [|apply keeps_none]. cbv zeta.
    apply keeps_bind.
    - apply keeps_fold; [|apply (onlyin_same _ s); [reflexivity|assumption]]. intros. now apply listInverseRemove_keeps.
    - intros s1 H1. apply keeps_fold; [|assumption]. intros. now apply listInverseAdd_keeps.
  Qed.
  Lemma eSetResource_keeps L s x r : (r <> None -> In x L) -> onlyin L s -> keeps (eSetResource M s x r) L.
  Proof.
    intros Hx H. unfold eSetResource. apply keeps_bind; [keep; now apply contentsRemove_keeps|]. intros s1 H1.
    apply keeps_bind.
    - keep; try (apply basicSetContainer_keeps; assumption); try (apply removeFromContainer_keeps; assumption).
    - intros s2 H2. apply keeps_some. destruct r; [apply onlyin_some; [apply Hx; discriminate|assumption]|now apply onlyin_none].
  Qed.
  Lemma contentsOp_keeps L s r p : onlyin L s -> exists L', incl L L' /\ keeps (contentsOp M s r p) L'.
  Proof.
    intro H. unfold contentsOp. destruct (list_effect (contents s r) p) as [[[st Rm] Ad]|]; cbn [obind]; [|exists L; split; [easy|apply keeps_none]]. cbv zeta.
    exists (Ad ++ L). split; [intros y Hy; apply in_or_app; now right|].
    apply keeps_bind.
    - apply keeps_fold.
      + intros. apply eSetResource_keeps; [congruence|assumption].
      + intros y Hy. rewrite contentsStages_res in Hy. apply in_or_app. right. now apply H.
    - intros s1 H1. apply keeps_fold; [|assumption]. intros. apply eSetResource_keeps; [|assumption]. intros _. apply in_or_app. now left.
  Qed.
  Lemma gstep_keeps L s p : onlyin L s -> exists L', keeps (gstep M s p) L'.
  Proof.
    intro H. destruct p as [o f v|o f|o f p|r p|r]; cbn [gstep].
    - exists L. destruct (accessed M o f); [now apply eSet_keeps|apply keeps_none].
    - exists L. destruct (accessed M o f); [now apply eUnset_keeps|apply keeps_none].
    - exists L. destruct (accessed M o f); [now apply listOp_keeps|apply keeps_none].
    - destruct (contentsOp_keeps L s r p H) as (L' & _ & H'). eauto.
    - exists L. unfold unload. destruct (loaded s r); apply keeps_some; [|assumption]. apply (onlyin_same _ s); [reflexivity|assumption].
  Qed.
  Lemma finite_resources s : reachable M s -> exists D, onlyin D s.
  Proof.
    induction 1 as [|s p s' Hs [D HD] Lg E].
    - exists []. intros x H. now elim H.
    - destruct (gstep_keeps D s p HD) as [D' H]. exists D'. now apply H.
  Qed.
End Finite.

Section Steps.
  Context (M : metamodel) (W : wf_metamodel M) (others : notifier -> bool).

  (** what the adapter walks is what is contained *)
  Lemma children_edge s : GInv M s -> RInv M s -> forall n x, In x (children M s n) <-> edge s n x.
  Proof.
    intros G R [o|r] x; cbn [children edge].
    2: { destruct R as (R1 & _). apply R1. }
    unfold eContents. rewrite in_flat_map. split.
    - intros (f & _ & Hx). destruct (f_cont M f) eqn:Ef; [|destruct Hx]. now apply (g_cont M s G o f x Ef).
    - intro Hx. destruct (g_ex M s G x o Hx) as (f & Hf & Hin). exists f. rewrite Hf. split; [|assumption].
      now destruct (g_typed M s G o f x Hin) as [[T _] _].
  Qed.
  Lemma edges_finite s : reachable M s -> exists D, forall n x, edge s n x -> In x D.
  Proof.
    intro Hs. destruct (finite_containers M W s Hs) as [D1 H1]. destruct (finite_resources M s Hs) as [D2 H2].
    exists (D1 ++ D2). intros [o|r] x H; apply in_or_app; cbn in H; [left; apply H1|right; apply H2]; congruence.
  Qed.

  Lemma covered_flag s A roots n x : exact s roots A -> A n = true -> edge s n x -> A (NObj x) = true.
  Proof. intros Hex Hn Hx. apply Hex in Hn. apply Hex. exact (cov_child _ _ _ _ Hn Hx). Qed.
  Lemma above_flag s A roots x z : exact s roots A -> A (NObj x) = true -> above s x z ->
    exists c, container s z = Some c /\ A (NObj c) = true.
  Proof.
    intros Hex Hx H. induction H as [c z H|c d z H _ IH]; [eauto|]. destruct (IH Hx) as (c' & Hc' & Ha).
    exists c. split; [assumption|]. exact (covered_flag s A roots (NObj c') c Hex Ha Hc').
  Qed.

  (** ** putting the adapter *)
  Lemma attach_exact s A roots n fuel A' : reachable M s -> exact s roots A -> addAdapter M s fuel A n = Some A' ->
    exact s (fun m => m = n \/ roots m) A'.
  Proof.
    intros Hs Hex E. destruct (reachable_ok M W s Hs) as [G R]. destruct (edges_finite s Hs) as [D HD].
    destruct (addAdapter_some M s D (children_edge s G R) HD _ _ _ _ E) as [K B N Dn C].
    intro m. split.
    - intro Hm. destruct (C m Hm) as [H|H].
      + apply Hex in H. revert H. apply covered_mono. intros. constructor. now right.
      + revert H. apply covered_mono. intros. constructor. now left.
    - induction 1 as [m [->|Hm]|p x _ IH Hx]; [now apply B|apply K, Hex; now constructor|].
      destruct (A p) eqn:Ep; [|eauto]. apply K. exact (covered_flag s A roots p x Hex Ep Hx).
  Qed.
  Lemma attach_progress s A n : reachable M s -> exists k, forall fuel, (k <= fuel)%nat -> exists A', addAdapter M s fuel A n = Some A'.
  Proof.
    intros Hs. destruct (reachable_ok M W s Hs) as [G R]. destruct (edges_finite s Hs) as [D HD].
    exists (length D + 2)%nat. intros fuel Hf. destruct (addAdapter_ok M s D (children_edge s G R) HD fuel A n) as (A' & E & _); [lia|eauto].
  Qed.

  (** ** taking it off *)
  Section Detach.
    Context (s : state) (roots : notifier -> Prop).
    Record left_over (A : flags) (L : list obj) : Prop := {
      lo_up : forall z, A (NObj z) = true -> roots (NObj z) \/ (exists p, edge s p z /\ A p = true) \/ In z L;
      lo_res : forall r, A (NRes r) = true -> roots (NRes r);
      lo_down : forall p z, edge s p z -> A p = true -> A (NObj z) = true;
      lo_root : forall n, roots n -> A n = true }.
    Lemma left_over_drop A x L : (exists p, edge s p x /\ A p = true) -> left_over A (x :: L) -> left_over A L.
    Proof.
      intros Hx [U R Dn Rt]. constructor; auto. intros z Hz. destruct (U z Hz) as [?|[?|[<-|?]]]; auto.
    Qed.
    Lemma left_over_step A A' x L : left_over A (x :: L) -> shrunk s A (fun m => m = NObj x) A' ->
      (forall q, edge s q x -> A q = false) -> (forall z, roots (NObj z) -> z <> x /\ ~ above s x z) -> left_over A' L.
    Proof.
      intros [U R Dn Rt] [K B Rs N Sd Cv] Hq Hr. constructor.
      - intros z Hz. destruct (U z (K _ Hz)) as [?|[(q & Hqz & Ha)|[<-|?]]]; auto.
        + destruct (A' q) eqn:Eq; [right; left; eauto|]. destruct (Cv q Ha Eq) as (y & _ & [->|(y' & -> & _)]).
          * destruct (Sd y z Ha Eq Hqz Hz) as (r & Hr' & Har). right. left. exists (NRes r). now rewrite Rs.
          * destruct (Sd y' z Ha Eq Hqz Hz) as (r & Hr' & Har). right. left. exists (NRes r). now rewrite Rs.
        + rewrite (B (NObj x) eq_refl) in Hz. discriminate.
      - intros r H. apply R. now rewrite <- Rs.
      - intros q z Hqz Ha. pose proof (Dn q z Hqz (K _ Ha)) as Hz. destruct (A' (NObj z)) eqn:Ez; [reflexivity|].
        destruct (N _ Hz Ez) as [[= ->]|(c & y & [= <-] & Hc & Hcy & Hrr)].
        + pose proof (Hq q Hqz) as F. rewrite (K q Ha) in F. discriminate.
        + destruct q as [c'|r]; cbn in Hcy, Hqz; [congruence|]. rewrite Rs in Ha. rewrite (Hrr r Hqz) in Ha. discriminate.
      - intros n Hn. destruct (A' n) eqn:En; [reflexivity|]. destruct (Cv n (Rt n Hn) En) as (y & [= ->] & [->|(z & -> & Hz)]).
        + now destruct (Hr x Hn).
        + now destruct (Hr z Hn).
    Qed.
  End Detach.

  Lemma detach_exact s A roots n fuel A' : reachable_safe M s -> exact s roots A -> outermost s roots A -> roots n ->
    removeAdapter M s fuel A n = Some A' -> exact s (fun m => m <> n /\ roots m) A'.
  Proof.
    intros Hs Hex Hout Hn E. pose proof (safe_reachable M s Hs) as Hs'. destruct (reachable_ok M W s Hs') as [G R].
    destruct (edges_finite s Hs') as [D HD]. pose proof (reachable_acyclic M W s Hs) as Hac. pose proof (children_edge s G R) as Hch.
    set (roots' := fun m => m <> n /\ roots m).
    assert (HA : A n = true) by (apply Hex; now constructor).
    assert (Hr : forall x, A (NObj x) = true -> forall z, roots (NObj z) -> ~ above s x z).
    { intros x Hx z Hz H. destruct (above_flag s A roots x z Hex Hx H) as (c & Hc & Ha). rewrite (Hout z (NObj c) Hz Hc) in Ha. discriminate. }
    assert (Hres : forall r, A (NRes r) = true -> roots (NRes r)).
    { intros r H. apply Hex in H. now inversion H. }
    enough (Lo : left_over s roots' A' []).
    { destruct Lo as [U Rs Dn Rt].
      apply (Inv_exact M s D Hch HD (fun _ => true) roots' (NRes 0) (fun _ _ => eq_refl) Hac true).
      constructor; auto; [intros x Hx; destruct (U x Hx) as [?|[?|[]]]; auto|]. intros p x Hp Ha. left. exact (Dn p x Hp Ha). }
    apply (removeAdapter_le M s fuel (fuel + length D + 2)%nat) in E; [|lia].
    destruct n as [x|r].
    - destruct (removeAdapter_ok M s D Hch HD (fuel + length D + 2)%nat A x) as (A2 & E2 & Sh); [lia|].
      rewrite E in E2. injection E2 as <-.
      apply (left_over_step s roots' A A' x []).
      + constructor.
        * intros z Hz. apply Hex in Hz. inversion Hz as [? Hz' E'|p y Hp Hy E']; subst.
          -- destruct (Nat.eq_dec z x) as [->|Ne]; [right; right; now left|]. left. split; [congruence|assumption].
          -- right. left. exists p. split; [assumption|]. now apply Hex.
        * intros r H. split; [discriminate|auto].
        * intros p z Hp Ha. exact (covered_flag s A roots p z Hex Ha Hp).
        * intros m [_ Hm]. apply Hex. now constructor.
      + assumption.
      + intros q Hq. exact (Hout x q Hn Hq).
      + intros z [Hne Hz]. split; [congruence|]. now apply Hr.
    - replace (fuel + length D + 2)%nat with (S (S (fuel + length D))) in E by lia. remember (S (fuel + length D)) as k eqn:Ek.
      cbn [removeAdapter] in E. rewrite HA in E. cbn [negb checksContainer] in E.
      assert (Hk : (length D < k)%nat) by lia.
      assert (Hc : forall x, In x (children M s (NRes r)) -> internalResource s x = Some r /\ A (NObj x) = true).
      { intros x Hx. apply (Hch (NRes r)) in Hx. split; [assumption|]. exact (covered_flag s A roots (NRes r) x Hex HA Hx). }
      assert (L0 : left_over s roots' (set_flag A (NRes r) false) (children M s (NRes r))).
      { constructor.
        - intros z Hz. cbn in Hz. apply Hex in Hz. inversion Hz as [? Hz' E'|p y Hp Hy E']; subst.
          + left. split; [discriminate|assumption].
          + right. destruct p as [c|r']; [left; exists (NObj c); split; [assumption|]; cbn; now apply Hex|].
            destruct (Nat.eq_dec r' r) as [->|Ne]; [right; now apply Hch|]. left. exists (NRes r'). split; [assumption|].
            unfold set_flag. cbn. destruct (Nat.eqb_spec r' r); [congruence|]. now apply Hex.
        - intros r' H. unfold set_flag in H. cbn in H. destruct (Nat.eqb_spec r' r) as [Eq|Ne]; [discriminate|]. split; [intros [= Eq]; contradiction|auto].
        - intros p z Hp Ha. cbn. apply (covered_flag s A roots p z Hex); [|assumption]. unfold set_flag in Ha. now destruct (notifier_eqb p (NRes r)).
        - intros m [Hne Hm]. unfold set_flag. destruct (notifier_eqb m (NRes r)) eqn:Em; [|apply Hex; now constructor].
          destruct m as [?|r']; cbn in Em; [discriminate|]. apply Nat.eqb_eq in Em as ->. congruence. }
      revert E Hc L0. assert (F0 : set_flag A (NRes r) false (NRes r) = false) by (unfold set_flag; cbn; now rewrite Nat.eqb_refl).
      revert F0. generalize (set_flag A (NRes r) false). induction (children M s (NRes r)) as [|x l IH]; intros B F0 E Hc L0; cbn [foldA] in E.
      { injection E as <-. assumption. }
      destruct (Hc x (or_introl eq_refl)) as [Hx1 Hx2].
      destruct (kept s B true false x) eqn:Ekp.
      + cbn [obind] in E. apply (IH B F0 E); [intros; apply Hc; now right|]. apply (left_over_drop _ _ _ x); [|assumption].
        unfold kept in Ekp. cbn in Ekp. destruct (container s x) as [c|] eqn:Ec; [|discriminate]. exists (NObj c). auto.
      + destruct (removeAdapter M s k B (NObj x)) as [B'|] eqn:EB; [|discriminate]. cbn [obind] in E.
        destruct (removeAdapter_ok M s D Hch HD (S k) B x) as (B2 & E2 & Sh); [lia|].
        rewrite (removeAdapter_le M s k (S k) ltac:(lia) _ _ _ EB) in E2. injection E2 as <-.
        apply (IH B'); [now rewrite (sh_res _ _ _ _ Sh)|assumption|intros; apply Hc; now right|].
        apply (left_over_step s roots' B B' x l L0 Sh).
        * intros [c|r'] Hq; cbn in Hq; [|congruence]. unfold kept in Ekp. cbn in Ekp. now rewrite Hq in Ekp.
        * intros z [_ Hz]. split; [|now apply Hr]. intros ->. rewrite (Hout x (NRes r) Hz Hx1) in HA. discriminate.
  Qed.

  Lemma detach_progress s A n : reachable M s -> exists k, forall fuel, (k <= fuel)%nat -> exists A', removeAdapter M s fuel A n = Some A'.
  Proof.
    intros Hs. destruct (reachable_ok M W s Hs) as [G R]. destruct (edges_finite s Hs) as [D HD]. pose proof (children_edge s G R) as Hch.
    exists (length D + 3)%nat. intros fuel Hf. destruct fuel as [|fuel]; [lia|]. cbn [removeAdapter]. destruct (A n); cbn [negb]; [|eauto].
    generalize (set_flag A n false). induction (children M s n) as [|x l IH]; intro B; cbn [foldA]; [eauto|].
    destruct (kept s B (checksContainer n) (negb (checksContainer n)) x); cbn [obind]; [apply IH|].
    destruct (removeAdapter_ok M s D Hch HD fuel B x) as (B' & -> & _); [lia|]. cbn [obind]. apply IH.
  Qed.

  (** ** a call *)
  Lemma astep_sound s A roots p s1 : reachable_safe M s -> exact s roots A -> outermost s roots A ->
    legal M s p -> safe_call M s p -> calm s p -> gstep M s p = Some s1 ->
    reachable_safe M s1 /\ exists k, forall fuel, (k <= fuel)%nat -> exists A', astep M others fuel s A p = Some (s1, A') /\ exact s1 roots A'.
  Proof.
    intros Hs Hex Hout Hl Hsc Hcalm E. assert (Hs1 : reachable_safe M s1) by (econstructor; eassumption).
    split; [assumption|]. pose proof (safe_reachable M s Hs) as Hr. pose proof (safe_reachable M s1 Hs1) as Hr1.
    destruct (reachable_ok M W s Hr) as [G R]. destruct (reachable_ok M W s1 Hr1) as [G1 R1].
    destruct (edges_finite s1 Hr1) as [D HD]. pose proof (children_edge s1 G1 R1) as Hch.
    pose proof (reachable_acyclic M W s Hs) as Ac0. pose proof (reachable_acyclic M W s1 Hs1) as Ac1.
    exists (length D + 2)%nat. intros fuel Hf. unfold astep. set (req := fun n => A n || others n).
    pose proof (gstepE_erase M req s p) as He. rewrite E in He.
    destruct (gstepE M req s p) as [[s1' es]|] eqn:Eg; [|discriminate]. cbn in He. injection He as ->.
    assert (Hreq : forall n, A n = true -> req n = true) by (intros n Hn; unfold req; now rewrite Hn).
    destruct (gstepE_accounted M W A req Hreq s p s1 es G R Hl Hcalm Eg) as (T & x & Rm & Ad & e1 & e2 & m & e3 & Sm & Ap).
    rewrite (chainAll_fresh es [] Ap). cbn [app obind].
    destruct (dispatch_ok M s1 D Hch HD A roots T) with (fuel := fuel) (es := es) (d := false) (A := A) as (A' & d' & -> & I).
    - intros n Hn. apply Hex. now constructor.
    - lia.
    - eapply start_inv; eassumption.
    - eapply all_fine; eassumption.
    - cbn [obind]. exists A'. split; [reflexivity|]. eapply (Inv_exact M s1 D Hch HD); try eassumption. intros n Hn. apply Hex. now constructor.
  Qed.
  Lemma astep_exact s A roots p fuel s1 A' : reachable_safe M s -> exact s roots A -> outermost s roots A ->
    legal M s p -> safe_call M s p -> calm s p -> astep M others fuel s A p = Some (s1, A') ->
    gstep M s p = Some s1 /\ reachable_safe M s1 /\ exact s1 roots A'.
  Proof.
    intros Hs Hex Hout Hl Hsc Hcalm E.
    assert (Hg : gstep M s p = Some s1).
    { unfold astep in E. pose proof (gstepE_erase M (fun n => A n || others n) s p) as He.
      destruct (gstepE M (fun n => A n || others n) s p) as [[s1' es]|]; [|discriminate]. cbn in He. rewrite <- He.
      destruct (chainAll [] es); [|discriminate]. cbn [obind] in E. destruct (dispatch M s1' fuel A l); [|discriminate]. cbn [obind] in E.
      now injection E as -> _. }
    split; [assumption|]. destruct (astep_sound s A roots p s1 Hs Hex Hout Hl Hsc Hcalm Hg) as (Hs1 & k & Hk).
    split; [assumption|]. destruct (Hk (k + fuel)%nat) as (A2 & E2 & Hx); [lia|].
    assert (A' = A2); [|now subst].
    unfold astep in E, E2. destruct (gstepE M (fun n => A n || others n) s p) as [[s1' es]|]; [|discriminate].
    destruct (chainAll [] es) as [ch|]; [|discriminate]. cbn [obind] in E, E2.
    destruct (dispatch M s1' fuel A ch) as [B|] eqn:Ed; [|discriminate]. cbn [obind] in E. injection E as -> <-.
    rewrite (dispatch_le M s1 fuel (k + fuel) ltac:(lia) _ _ _ Ed) in E2. cbn [obind] in E2. now injection E2 as <-.
  Qed.

  (** ** histories *)
  Lemma watched_exact s A roots : watched M others s A roots -> reachable_safe M s /\ exact s roots A.
  Proof.
    induction 1 as [s Hs|s A roots n fuel A' _ [Hs Hex] _ E|s A roots n fuel A' _ [Hs Hex] Hn Hout E|s A roots p fuel s' A' _ [Hs Hex] Hl Hsc Hc Hout E].
    - split; [assumption|]. intro n. split; [discriminate|]. induction 1 as [n []|]. assumption.
    - split; [assumption|]. apply (attach_exact s A roots n fuel A' (safe_reachable M s Hs) Hex E).
    - split; [assumption|]. apply (detach_exact s A roots n fuel A' Hs Hex Hout Hn E).
    - destruct (astep_exact s A roots p fuel s' A' Hs Hex Hout Hl Hsc Hc E) as (_ & ? & ?). auto.
  Qed.
  Lemma covered_one s o n : covered s (fun m => m = NObj o) n <-> n = NObj o \/ exists x, n = NObj x /\ above s o x.
  Proof.
    split.
    - induction 1 as [n ->|p x _ IH Hx]; [now left|]. right. exists x. split; [reflexivity|].
      destruct IH as [->|(y & -> & Hy)]; cbn in Hx; [now constructor|]. econstructor; eassumption.
    - intros [->|(x & -> & Hx)]; [now constructor|]. induction Hx as [c x H|c d x H _ IH].
      + apply (cov_child _ _ (NObj c)); [now constructor|exact H].
      + apply (cov_child _ _ (NObj c)); [assumption|exact H].
  Qed.
  Lemma one_outermost s o A : acyclic s -> exact s (fun m => m = NObj o) A -> outermost s (fun m => m = NObj o) A.
  Proof.
    intros Hac Hex x p [= ->] Hp. destruct (A p) eqn:Ep; [|reflexivity]. exfalso. apply Hex, covered_one in Ep.
    destruct Ep as [->|(y & -> & Hy)]; cbn in Hp; apply (Hac o); [now constructor|econstructor; eassumption].
  Qed.
  Lemma followed_exact o s A : followed M others o s A -> reachable_safe M s /\ exact s (fun m => m = NObj o) A.
  Proof.
    induction 1 as [s fuel A Hs E|s A p fuel s' A' _ [Hs Hex] Hl Hsc Hc E].
    - split; [assumption|]. assert (Hex : exact s (fun _ => False) (fun _ => false)).
      { intro n. split; [discriminate|]. induction 1 as [n []|]. assumption. }
      pose proof (attach_exact s _ _ _ _ _ (safe_reachable M s Hs) Hex E) as Hex'.
      intro n. rewrite (Hex' n). split; apply covered_mono; intros m Hm; constructor; tauto.
    - destruct (astep_exact s A _ p fuel s' A' Hs Hex (one_outermost s o A (reachable_acyclic M W s Hs) Hex) Hl Hsc Hc E) as (_ & ? & ?). auto.
  Qed.
End Steps.
