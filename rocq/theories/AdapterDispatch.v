From Verif Require Import Base ListModel NotifyModel GraphModel GraphSpec AdapterModel AdapterSpec AdapterWalk.

(** ** What a notification asks of the adapter *)
Definition rems (nt : notification nat) : list obj :=
  match evt nt with
  | SET | UNSET | REMOVE => value (oldValue nt)
  | REMOVE_MANY => values (oldValue nt)
  | _ => []
  end.
Definition adds (nt : notification nat) : list obj :=
  match evt nt with
  | SET | UNSET | ADD => value (newValue nt)
  | ADD_MANY => values (newValue nt)
  | _ => []
  end.
Definition checkC (n : notifier) (nt : notification nat) : bool :=
  match evt nt with SET | UNSET => false | _ => checksContainer n end.
Definition checkR (n : notifier) (nt : notification nat) : bool :=
  match evt nt with SET | UNSET => true | _ => negb (checksContainer n) end.

Lemma foldA_nil f A : foldA f [] A = Some A.
Proof. reflexivity. Qed.
Lemma obind_some {X} (m : option X) : obind m Some = m.
Proof. now destruct m. Qed.
Lemma handle_eq M s fuel A n f nt : handleContainment M s fuel A (n, f, nt) =
  (let? A' := foldA (removeWithChecks M s fuel (checkC n nt) (checkR n nt)) (rems nt) A in
   foldA (fun A x => addAdapter M s fuel A (NObj x)) (adds nt) A').
Proof.
  unfold handleContainment, rems, adds, checkC, checkR. cbv zeta.
  destruct (evt nt); try reflexivity; symmetry; apply obind_some.
Qed.

(** ** More fuel changes nothing *)
Lemma foldA_le (f g : flags -> obj -> option flags) l : (forall A x A', f A x = Some A' -> g A x = Some A') ->
  forall A A', foldA f l A = Some A' -> foldA g l A = Some A'.
Proof.
  intro H. induction l as [|x l IH]; intros A A' E; cbn [foldA] in *; [assumption|].
  destruct (f A x) as [B|] eqn:EB; [|discriminate]. rewrite (H _ _ _ EB). cbn [obind] in *. auto.
Qed.
Lemma addAdapter_le M s k j : (k <= j)%nat -> forall A n A', addAdapter M s k A n = Some A' -> addAdapter M s j A n = Some A'.
Proof. intros H A n A' E. replace j with ((j - k) + k)%nat by lia. now apply addAdapter_plus. Qed.
Lemma removeAdapter_le M s k : forall j, (k <= j)%nat -> forall A n A', removeAdapter M s k A n = Some A' -> removeAdapter M s j A n = Some A'.
Proof.
  induction k as [|k IH]; intros j Hj A n A' E; [discriminate|]. destruct j as [|j]; [lia|]. cbn [removeAdapter] in *.
  destruct (negb (A n)); [assumption|]. revert E. apply foldA_le. intros B x B'.
  destruct (kept s B _ _ x); [auto|]. apply IH. lia.
Qed.
Lemma dispatch_le M s k j : (k <= j)%nat -> forall es A A', dispatch M s k A es = Some A' -> dispatch M s j A es = Some A'.
Proof.
  intros Hj es. induction es as [|[[n f] nt] es IH]; intros A A' E; cbn [dispatch] in *; [assumption|]. cbn [fst snd] in *.
  destruct (A n).
  - rewrite handle_eq in *. destruct (foldA _ (rems nt) A) as [B|] eqn:EB; [|discriminate]. cbn [obind] in E.
    rewrite (foldA_le _ (removeWithChecks M s j (checkC n nt) (checkR n nt)) _ ) with (2 := EB).
    + cbn [obind]. destruct (foldA _ (adds nt) B) as [C|] eqn:EC; [|discriminate]. cbn [obind] in E.
      rewrite (foldA_le _ (fun A x => addAdapter M s j A (NObj x)) _) with (2 := EC); [cbn [obind]; auto|].
      intros. eapply addAdapter_le; eassumption.
    + intros D x D'. unfold removeWithChecks. destruct (kept s D _ _ x); [auto|]. now apply removeAdapter_le.
  - cbn [obind] in *. auto.
Qed.

Section Dispatch.
  Context (M : metamodel) (s : state) (D : list obj).
  Context (Hch : forall n x, In x (children M s n) <-> edge s n x) (HD : forall n x, edge s n x -> In x D).
  (** the flags before the call, the roots, and the notifier that receives objects *)
  Context (A0 : flags) (roots : notifier -> Prop) (T : notifier).
  Context (Hroots : forall n, roots n -> A0 n = true).

  (** [P]: removals still to come, [Q]: additions still to come, [d]: additions have been handled *)
  Record Inv (d : bool) (A : flags) (P Q : list (notifier * obj)) : Prop := {
    i_up : forall x, A (NObj x) = true ->
             roots (NObj x) \/ (exists p, edge s p x /\ A p = true) \/ (exists p, In (p, x) P /\ A p = true);
    i_res : forall r, A (NRes r) = true -> roots (NRes r);
    i_down : forall p x, edge s p x -> A p = true -> A (NObj x) = true \/ In (p, x) Q;
    i_root : forall n, roots n -> A n = true;
    i_old : A0 T = false -> forall n, A n = true -> A0 n = true;
    i_fresh : d = false -> forall n, A n = true -> A0 n = true }.

  (** a removal of [x] announced by [p] *)
  Record removable (cC cR : bool) (p : notifier) (x : obj) (P Q : list (notifier * obj)) : Prop := {
    rm_cont : cC = false -> forall q, container s x = Some q -> NObj q = T /\ (A0 T = true -> In (T, x) Q);
    rm_res : cR = false -> forall r, internalResource s x = Some r -> NRes r = T /\ (A0 T = true -> In (T, x) Q);
    rm_later : forall c z, In (NObj c, z) P -> c <> x /\ ~ above s x c;
    rm_roots : A0 p = true -> forall z, roots (NObj z) -> z <> x /\ ~ above s x z }.

  Lemma Inv_P d A P P' Q : (forall e, In e P -> In e P') -> Inv d A P Q -> Inv d A P' Q.
  Proof.
    intros H [U R Dn Rt O F]. constructor; auto. intros x Hx. destruct (U x Hx) as [?|[?|(p & Hp & Ha)]]; auto.
    right. right. eauto.
  Qed.
  Lemma Inv_drop d A p x P Q : A p = false \/ roots (NObj x) \/ (exists q, edge s q x /\ A q = true) -> Inv d A ((p, x) :: P) Q -> Inv d A P Q.
  Proof.
    intros H [U R Dn Rt O F]. constructor; auto. intros z Hz. destruct (U z Hz) as [?|[?|(q & [[= <- <-]|Hq] & Ha)]]; auto.
    - destruct H as [H|[H|H]]; auto. congruence.
    - right. right. eauto.
  Qed.

  Lemma rem_step d fuel cC cR p x P Q A : (length D + 1 < fuel)%nat -> Inv d A ((p, x) :: P) Q -> A0 p = true ->
    removable cC cR p x P Q ->
    exists A', removeWithChecks M s fuel cC cR A x = Some A' /\ Inv d A' P Q
      /\ forall m, A m = true -> A' m = false -> exists y, m = NObj y /\ (y = x \/ above s x y).
  Proof.
    intros Hf I Hp [C1 C2 C3 C4]. pose proof I as [U R Dn Rt O F]. unfold removeWithChecks.
    destruct (kept s A cC cR x) eqn:Ek.
    - exists A. split; [reflexivity|]. split; [|congruence]. apply (Inv_drop _ _ p x); [|assumption]. right. right. unfold kept in Ek.
      apply orb_true_iff in Ek as [Ek|Ek]; apply andb_true_iff in Ek as [_ Ek].
      + destruct (internalResource s x) as [r|] eqn:Er; [|discriminate]. exists (NRes r). auto.
      + destruct (container s x) as [c|] eqn:Ec; [|discriminate]. exists (NObj c). auto.
    - destruct (removeAdapter_ok M s D Hch HD fuel A x Hf) as (A' & -> & [K B Rs N Sd Cv]).
      exists A'. split; [reflexivity|].
      assert (NotA : forall m, A m = true -> A' m = false -> exists y, m = NObj y /\ (y = x \/ above s x y)).
      { intros m H H'. destruct (Cv m H H') as (z & [= ->] & [->|(y & -> & Hy)]); eauto. }
      split; [|exact NotA]. constructor.
      + intros z Hz. destruct (U z (K _ Hz)) as [?|[(q & Hq & Ha)|(q & [[= <- <-]|Hq] & Ha)]]; auto.
        * destruct (A' q) eqn:Eq; [right; left; eauto|]. destruct (NotA q Ha Eq) as (c & -> & _).
          destruct (Sd c z Ha Eq Hq Hz) as (r & Hr & Har). right. left. exists (NRes r). now rewrite Rs.
        * rewrite (B (NObj x) eq_refl) in Hz. discriminate.
        * destruct (A' q) eqn:Eq; [right; right; eauto|]. destruct (NotA q Ha Eq) as (c & -> & Hc).
          destruct (C3 c z Hq) as [N1 N2]. destruct Hc; contradiction.
      + intros r H. apply R. now rewrite <- Rs.
      + intros q z Hq Ha. destruct (Dn q z Hq (K _ Ha)) as [Hz|?]; [|auto].
        destruct (A' (NObj z)) eqn:Ez; [auto|]. right.
        destruct (N _ Hz Ez) as [[= ->]|(c & y & [= <-] & Hc & Hcy & Hr)].
        * (* x itself: its other parent *)
          unfold kept in Ek. apply orb_false_iff in Ek as [E1 E2]. destruct q as [c|r].
          -- cbn in Hq. destruct cC.
             ++ cbn in E2. rewrite Hq in E2. apply K in Ha. congruence.
             ++ destruct (C1 eq_refl c Hq) as [E H]. rewrite E in *. apply H.
                destruct (A0 T) eqn:E0; [reflexivity|]. rewrite (O eq_refl T) in E0; [discriminate|]. now apply K.
          -- cbn in Hq. destruct cR.
             ++ cbn in E1. rewrite Hq in E1. apply K in Ha. congruence.
             ++ destruct (C2 eq_refl r Hq) as [E H]. rewrite E in *. apply H.
                destruct (A0 T) eqn:E0; [reflexivity|]. rewrite (O eq_refl T) in E0; [discriminate|]. now apply K.
        * exfalso. destruct q as [c'|r].
          -- cbn in Hq, Hcy. rewrite Hq in Hcy. injection Hcy as ->. congruence.
          -- specialize (Hr r Hq). apply K in Ha. congruence.
      + intros n Hn. destruct (A' n) eqn:E; [reflexivity|]. exfalso. destruct (NotA n (Rt n Hn) E) as (z & -> & Hz).
        destruct (C4 Hp z Hn) as [N1 N2]. destruct Hz; contradiction.
      + intros H n Hn. auto.
      + intros H n Hn. auto.
  Qed.

  Lemma rems_step d fuel cC cR p l : forall A P Q, (length D + 1 < fuel)%nat -> Inv d A (map (pair p) l ++ P) Q -> A0 p = true ->
    (forall l1 x l2, l = l1 ++ x :: l2 -> removable cC cR p x (map (pair p) l2 ++ P) Q) ->
    exists A', foldA (removeWithChecks M s fuel cC cR) l A = Some A' /\ Inv d A' P Q
      /\ forall m, A m = true -> A' m = false -> exists x y, In x l /\ m = NObj y /\ (y = x \/ above s x y).
  Proof.
    induction l as [|x l IH]; intros A P Q Hf I Hp H; cbn [foldA map app] in *; [exists A; split; [reflexivity|]; split; [assumption|congruence]|].
    destruct (rem_step d fuel cC cR p x (map (pair p) l ++ P) Q A Hf I Hp (H [] x l eq_refl)) as (A1 & -> & I1 & G1). cbn [obind].
    destruct (IH A1 P Q Hf I1 Hp) as (A2 & -> & I2 & G2).
    { intros l1 y l2 E. apply (H (x :: l1) y l2). now rewrite E. }
    exists A2. split; [reflexivity|]. split; [assumption|]. intros m Hm Hm2. destruct (A1 m) eqn:E.
    - destruct (G2 m E Hm2) as (z & y & Hz & ? & ?). exists z, y. cbn. auto.
    - destruct (G1 m Hm E) as (y & ? & ?). exists x, y. cbn. auto.
  Qed.

  Lemma adds_step d fuel l A P Q : (length D + 1 < fuel)%nat -> Inv d A P (map (pair T) l ++ Q) -> A T = true ->
    (forall x, In x l -> edge s T x) ->
    exists A', foldA (fun A x => addAdapter M s fuel A (NObj x)) l A = Some A'
      /\ Inv (d || match l with [] => false | _ => true end) A' P Q.
  Proof.
    intros Hf I HT Hl. destruct l as [|x0 l0] eqn:El.
    { exists A. split; [reflexivity|]. rewrite orb_false_r. exact I. }
    rewrite <- El in *. destruct I as [U R Dn Rt O F]. destruct (addAll_ok M s D Hch HD fuel l A Hf) as (A' & -> & [K B N Gd _]).
    exists A'. split; [reflexivity|]. constructor.
    - intros x Hx. destruct (A (NObj x)) eqn:E.
      + destruct (U x E) as [?|[(p & Hp & Ha)|(p & Hp & Ha)]]; [auto|right; left; eauto|right; right; eauto].
      + destruct (N _ Hx E) as [(y & Hy & [= <-])|(p & y & [= <-] & Ha & Hp)]; right; left; eauto.
    - intros r H. destruct (A (NRes r)) eqn:E; [auto|]. destruct (N _ H E) as [(y & _ & Q0)|(p & y & Q0 & _)]; discriminate Q0.
    - intros p x Hx Ha. destruct (A p) eqn:E; [|left; eauto]. destruct (Dn p x Hx E) as [H|H]; [left; auto|].
      apply in_app_or in H as [H|H]; [|auto]. apply in_map_iff in H as (y & [= <- <-] & Hy). left. apply B. eauto.
    - auto.
    - intros H n Hn. rewrite (O H T HT) in H. discriminate.
    - intros H. rewrite orb_true_r in H. discriminate.
  Qed.

  Fixpoint pairsR (es : list event) : list (notifier * obj) :=
    match es with [] => [] | (n, _, nt) :: es' => map (pair n) (rems nt) ++ pairsR es' end.
  Fixpoint pairsA (es : list event) : list (notifier * obj) :=
    match es with [] => [] | (n, _, nt) :: es' => map (pair n) (adds nt) ++ pairsA es' end.
  Definition some_adds (nt : notification nat) : bool := match adds nt with [] => false | _ => true end.
  Fixpoint fine (d : bool) (es : list event) : Prop :=
    match es with
    | [] => True
    | (n, _, nt) :: es' =>
        (forall l1 x l2, rems nt = l1 ++ x :: l2 ->
           removable (checkC n nt) (checkR n nt) n x (map (pair n) l2 ++ pairsR es') (map (pair n) (adds nt) ++ pairsA es')) /\
        (d = true -> rems nt = [] \/ exists r, n = NRes r) /\
        (adds nt <> [] -> forall x c, In x (rems nt) -> n = NObj c -> c <> x /\ ~ above s x c) /\
        (forall x, In x (adds nt) -> n = T /\ edge s n x) /\
        fine (d || some_adds nt) es'
    end.

  Lemma Inv_unheard d A n l l' P Q : A n = false -> Inv d A (map (pair n) l ++ P) (map (pair n) l' ++ Q) -> Inv d A P Q.
  Proof.
    intros H [U R Dn Rt O F]. constructor; auto.
    - intros x Hx. destruct (U x Hx) as [?|[?|(p & Hp & Ha)]]; auto. apply in_app_or in Hp as [Hp|Hp]; [|right; right; eauto].
      apply in_map_iff in Hp as (y & [= <- <-] & _). congruence.
    - intros p x Hx Ha. destruct (Dn p x Hx Ha) as [?|Hq]; [auto|]. apply in_app_or in Hq as [Hq|Hq]; [|auto].
      apply in_map_iff in Hq as (y & [= <- <-] & _). congruence.
  Qed.
  Lemma Inv_d d A P Q : Inv d A P Q -> forall d', Inv (d || d') A P Q.
  Proof. intros [U R Dn Rt O F] d'. constructor; auto. intro H. apply orb_false_iff in H as [H _]. auto. Qed.

  Lemma dispatch_ok fuel : (length D + 1 < fuel)%nat -> forall es d A, Inv d A (pairsR es) (pairsA es) -> fine d es ->
    exists A' d', dispatch M s fuel A es = Some A' /\ Inv d' A' [] [].
  Proof.
    intros Hf es. induction es as [|[[n f] nt] es IH]; intros d A I F; cbn [dispatch pairsR pairsA fine fst snd] in *; [eauto|].
    destruct F as (F1 & F2 & F2' & F3 & F4). destruct (A n) eqn:En.
    - rewrite handle_eq.
      assert (H1 : exists A1, foldA (removeWithChecks M s fuel (checkC n nt) (checkR n nt)) (rems nt) A = Some A1
                /\ Inv d A1 (pairsR es) (map (pair n) (adds nt) ++ pairsA es)
                /\ forall m, A m = true -> A1 m = false -> exists x y, In x (rems nt) /\ m = NObj y /\ (y = x \/ above s x y)).
      { destruct (rems nt) as [|x l] eqn:Er; [exists A; split; [reflexivity|]; split; [exact I|congruence]|]. rewrite <- Er in *.
        apply (rems_step d fuel _ _ n); auto.
        destruct d; [|exact (i_fresh _ _ _ _ I eq_refl n En)].
        destruct (F2 eq_refl) as [E|[r ->]]; [congruence|]. apply Hroots. exact (i_res _ _ _ _ I r En). }
      destruct H1 as (A1 & -> & I1 & G1). cbn [obind].
      destruct (adds nt) as [|x l] eqn:Ea.
      + cbn [foldA obind]. apply (IH (d || some_adds nt)); [|assumption]. now apply Inv_d.
      + destruct (F3 x) as [-> _]; [now left|].
        destruct (A1 T) eqn:E1.
        * destruct (adds_step d fuel (x :: l) A1 (pairsR es) (pairsA es) Hf I1 E1) as (A2 & -> & I2).
          { intros y Hy. now apply F3. }
          cbn [obind]. apply (IH (d || some_adds nt)); [|assumption]. unfold some_adds. now rewrite Ea.
        * exfalso. destruct (G1 T En E1) as (z & y & Hz & ET & Hy). destruct (F2' ltac:(discriminate) z y Hz ET) as [N1 N2].
          destruct Hy; contradiction.
    - cbn [obind]. apply (IH (d || some_adds nt)); [|assumption]. apply Inv_d. exact (Inv_unheard _ _ _ _ _ _ _ En I).
  Qed.

  (** ** at the end the adapter is on the roots and all below *)
  Context (Hac : acyclic s).
  Lemma above_D x y : above s x y -> In y D.
  Proof. intro H. destruct H as [c x H|c d x H _]; exact (HD (NObj c) x H). Qed.
  Lemma climb (P : obj -> Prop) : (forall x, (forall c, container s x = Some c -> P c) -> P x) -> forall x, P x.
  Proof.
    intro H.
    assert (G : forall k seen x, NoDup seen -> (forall y, In y seen -> above s x y) -> (length D <= length seen + k)%nat -> P x).
    { induction k as [|k IH]; intros seen x Hn Hs Hl; apply H; intros c Hc.
      - exfalso. assert (Hi : incl (x :: seen) D).
        { intros y [<-|Hy]; [exact (HD (NObj c) x Hc)|]. now apply (above_D x), Hs. }
        assert (Hn' : NoDup (x :: seen)) by (constructor; [|assumption]; intro Hx; exact (Hac x (Hs x Hx))).
        pose proof (NoDup_incl_length Hn' Hi) as Hl'. cbn in Hl'. lia.
      - apply (IH (x :: seen)).
        + constructor; [|assumption]. intro Hx. exact (Hac x (Hs x Hx)).
        + intros y [<-|Hy]; [now constructor|]. specialize (Hs y Hy). clear - Hc Hs.
          induction Hs as [x y Hy|d x y Hy _ IH]; [apply (above_step _ x); [assumption|now constructor]|]. apply (above_step _ d); auto.
        + cbn. lia. }
    intro x. apply (G (length D) [] x); [constructor|intros y []|cbn; lia].
  Qed.
  Lemma Inv_exact d A : Inv d A [] [] -> exact s roots A.
  Proof.
    intros [U R Dn Rt _ _] n. split.
    - destruct n as [x|r]; [|intro H; constructor; auto]. revert x. apply (climb (fun x => A (NObj x) = true -> covered s roots (NObj x))).
      intros x IH Hx. destruct (U x Hx) as [?|[(p & Hp & Ha)|(p & [] & _)]]; [now constructor|].
      apply (cov_child _ _ p); [|assumption]. destruct p as [c|r]; [exact (IH c Hp Ha)|]. constructor. auto.
    - intro C. induction C as [n Hn|p x _ IH Hx]; [auto|]. destruct (Dn p x Hx IH) as [?|[]]. assumption.
  Qed.
End Dispatch.
