(** The first half of Copy: new objects, attributes and contents. *)
From Verif Require Import Base ListModel ListSpec ListProofs GraphModel GraphSpec GraphProofs GraphInv GraphSteps CopyModel CopySpec CopySteps.

Section CopyProofs.
  Context (M : metamodel) (W : wf_metamodel M) (X : copyInfo) (alloc : nat -> nat -> obj) (A : factory M alloc) (L : features_listed M X).
  Notation f_many := (f_many M). Notation f_cont := (f_cont M). Notation f_opp := (f_opp M).
  Notation features := (features M). Notation isContainer := (isContainer M). Notation link_typed := (link_typed M).
  Notation copied := (copied X). Notation child := (child M X). Notation inside := (inside M X).
  Notation is_new := (is_new alloc). Notation good := (good M alloc).
  Notation GInv := (GInv M).

  Lemma features_class x c : classOf M c = classOf M x -> features c = features x.
  Proof. unfold GraphModel.features. now intros ->. Qed.

  (** *** the containment tree of a reachable graph *)
  Section Tree.
    Context (g : state) (R : reachable M g).
    Lemma child_parent a b x : child g a x -> child g b x -> a = b.
    Proof.
      intros (f & _ & _ & _ & Hf & Hx) (f' & _ & _ & _ & Hf' & Hx').
      destruct (reachable_ok M W g R) as [G _]. symmetry. now apply (place_unique M W g G x a f b f').
    Qed.
    Lemma inside_trans a b x : inside g a b -> inside g b x -> inside g a x.
    Proof. intros Hab. induction 1; [assumption|]. eapply inside_child; eassumption. Qed.
    Lemma inside_linear a b x : inside g a x -> inside g b x -> inside g a b \/ inside g b a.
    Proof.
      intros Ha. revert b. induction Ha as [|p y Hp IH Hy]; intros b Hb; [now right|].
      inversion Hb as [|p' ? Hp' Hy']; subst.
      - left. eapply inside_child; eassumption.
      - assert (p' = p) by (eapply child_parent; eassumption). subst. now apply IH.
    Qed.
    Lemma inside_rank rank : ranked M X g rank -> forall a x, inside g a x -> (rank x <= rank a)%nat.
    Proof. intros Hr a x H. induction H as [|p y Hp IH Hy]; [lia|]. apply Hr in Hy. lia. Qed.
    Lemma inside_proper a x : inside g a x -> a = x \/ exists y, child g a y /\ inside g y x.
    Proof.
      intro H. induction H as [|p y Hp IH Hy]; [now left|]. right. destruct IH as [->|(z & Hz & Hzp)].
      - exists y. split; [assumption|constructor].
      - exists z. split; [assumption|]. eapply inside_child; eassumption.
    Qed.
    (** two children of one object have nothing in common *)
    Lemma siblings_apart rank o a b x : ranked M X g rank -> child g o a -> child g o b -> inside g a x -> inside g b x -> a = b.
    Proof.
      intros Hr Ha Hb Hax Hbx.
      assert (Hgen : forall a b, child g o a -> child g o b -> inside g a b -> a = b).
      { clear - R W Hr. intros a b Ha Hb Hab. inversion Hab as [|p ? Hp Hy]; subst; [reflexivity|].
        assert (p = o) by (eapply child_parent; eassumption). subst.
        apply (inside_rank rank Hr) in Hp. apply Hr in Ha. lia. }
      destruct (inside_linear a b x Hax Hbx) as [H|H]; [now apply Hgen|symmetry; now apply Hgen].
    Qed.
  End Tree.

  (** *** what a part of the copy does: it adds the pairs [nw] *)
  Record grown (s s' : cstate) (nw : list (obj * obj)) : Prop := {
    w_copies : copies s' = nw ++ copies s;
    w_next : (nextObj s <= nextObj s')%nat;
    w_nextl : (nextList s <= nextList s')%nat;
    w_vals : forall x c, In (x, c) nw -> exists k, (nextObj s <= k < nextObj s')%nat /\ c = alloc k (classOf M x);
    w_valsnd : NoDup (map snd nw);
    w_frame : forall z, ~ In z (map snd nw) ->
      container (graph s') z = container (graph s) z /\ containerFeatureID (graph s') z = containerFeatureID (graph s) z /\
      (forall f, slot (graph s') z f = slot (graph s) z f) /\ (forall f, attrs s' z f = attrs s z f);
    w_res : internalResource (graph s') = internalResource (graph s) /\ contents (graph s') = contents (graph s) /\ loaded (graph s') = loaded (graph s);
    w_lists : forall l, (l < nextList s)%nat -> lists s' l = lists s l;
    w_lists_new : forall c f l, In c (map snd nw) -> attrs s' c f = Some (CList l) -> (nextList s <= l)%nat;
    w_good : good s'
  }.

  Lemma alloc_inj k c k' c' : alloc k c = alloc k' c' -> k = k'.
  Proof. exact (a_distinct M alloc A k c k' c'). Qed.

  Lemma grown_val s s' nw c : grown s s' nw -> In c (map snd nw) -> exists x k, In (x, c) nw /\ (nextObj s <= k < nextObj s')%nat /\ c = alloc k (classOf M x).
  Proof.
    intros G H. apply in_map_iff in H as ((x & c') & <- & H). destruct (w_vals _ _ _ G _ _ H) as (k & Hk & ->). eauto.
  Qed.
  Lemma grown_is_new s s' nw c : grown s s' nw -> In c (map snd nw) -> is_new s c.
  Proof. intros G H. destruct (grown_val _ _ _ _ G H) as (x & k & _ & Hk & ->). exists k, (classOf M x). split; [lia|reflexivity]. Qed.
  Lemma grown_not_new s s' nw c : grown s s' nw -> In c (map snd nw) -> ~ is_new s' c.
  Proof.
    intros G H (k & d & Hk & E). destruct (grown_val _ _ _ _ G H) as (x & k' & _ & Hk' & ->). apply alloc_inj in E. lia.
  Qed.
  Lemma new_older s s' nw z : grown s s' nw -> is_new s' z -> is_new s z.
  Proof. intros G (k & d & Hk & ->). exists k, d. split; [pose proof (w_next _ _ _ G); lia|reflexivity]. Qed.

  Lemma grown_trans s s1 s2 nw1 nw2 : grown s s1 nw1 -> grown s1 s2 nw2 -> grown s s2 (nw2 ++ nw1).
  Proof.
    intros G1 G2. constructor.
    - rewrite (w_copies _ _ _ G2), (w_copies _ _ _ G1). apply app_assoc.
    - pose proof (w_next _ _ _ G1). pose proof (w_next _ _ _ G2). lia.
    - pose proof (w_nextl _ _ _ G1). pose proof (w_nextl _ _ _ G2). lia.
    - intros x c H. apply in_app_iff in H as [H|H].
      + destruct (w_vals _ _ _ G2 _ _ H) as (k & Hk & ->). exists k. split; [pose proof (w_next _ _ _ G1); lia|reflexivity].
      + destruct (w_vals _ _ _ G1 _ _ H) as (k & Hk & ->). exists k. split; [pose proof (w_next _ _ _ G2); lia|reflexivity].
    - rewrite map_app. apply NoDup_app_iff. split; [exact (w_valsnd _ _ _ G2)|]. split; [exact (w_valsnd _ _ _ G1)|].
      intros c H2 H1. apply (grown_not_new _ _ _ _ G1 H1). eapply grown_is_new; eassumption.
    - intros z Hz. rewrite map_app, in_app_iff in Hz.
      destruct (w_frame _ _ _ G1 z) as (E1 & E2 & E3 & E4); [tauto|].
      destruct (w_frame _ _ _ G2 z) as (F1 & F2 & F3 & F4); [tauto|].
      split; [congruence|]. split; [congruence|]. split; intro f; [now rewrite F3|now rewrite F4].
    - destruct (w_res _ _ _ G1) as (E1 & E2 & E3). destruct (w_res _ _ _ G2) as (F1 & F2 & F3). repeat split; congruence.
    - intros l Hl. rewrite (w_lists _ _ _ G2) by (pose proof (w_nextl _ _ _ G1); lia). now apply (w_lists _ _ _ G1).
    - intros c f l Hc E. rewrite map_app in Hc. destruct (in_dec Nat.eq_dec c (map snd nw2)) as [H2|H2].
      + pose proof (w_lists_new _ _ _ G2 c f l H2 E). pose proof (w_nextl _ _ _ G1). lia.
      + apply in_app_iff in Hc as [Hc|Hc]; [contradiction|].
        destruct (w_frame _ _ _ G2 c H2) as (_ & _ & _ & F). rewrite F in E. exact (w_lists_new _ _ _ G1 c f l Hc E).
    - exact (w_good _ _ _ G2).
  Qed.

  Lemma attr_frame s s' o : (forall f, attrs s' o f = attrs s o f) -> good s -> (forall l, (l < nextList s)%nat -> lists s' l = lists s l) ->
    forall f, attr_value s' o f = attr_value s o f.
  Proof.
    intros H G Hl f. unfold attr_value. rewrite H. destruct (attrs s o f) as [[p|l]|] eqn:E; auto.
    rewrite Hl; [reflexivity|]. exact (o_lists M alloc s G o f l E).
  Qed.

  (** *** relative to the state at the start *)
  Section Base.
    Context (s0 : cstate) (H0 : good s0) (rank : obj -> nat) (HR : ranked M X (graph s0) rank).
    Notation g0 := (graph s0).

    Record based (s : cstate) : Prop := {
      t_good : good s;
      t_next : (nextObj s0 <= nextObj s)%nat;
      t_nextl : (nextList s0 <= nextList s)%nat;
      t_slot : forall z f, ~ is_new s0 z -> slot (graph s) z f = slot g0 z f;
      t_attr : forall z f, ~ is_new s0 z -> attrs s z f = attrs s0 z f;
      t_lists : forall l, (l < nextList s0)%nat -> lists s l = lists s0 l
    }.
    Lemma based_new s z : based s -> is_new s z -> is_new s0 z.
    Proof. intros B (k & d & Hk & ->). exists k, d. split; [pose proof (t_next s B); lia|reflexivity]. Qed.
    Lemma based_grown s s' nw : based s -> grown s s' nw -> based s'.
    Proof.
      intros B G. constructor.
      - exact (w_good _ _ _ G).
      - pose proof (t_next s B). pose proof (w_next _ _ _ G). lia.
      - pose proof (t_nextl s B). pose proof (w_nextl _ _ _ G). lia.
      - intros z f Hz. destruct (w_frame _ _ _ G z) as (_ & _ & E & _); [|rewrite E; now apply t_slot].
        intro Hin. apply Hz. apply (based_new s); [assumption|]. eapply grown_is_new; eassumption.
      - intros z f Hz. destruct (w_frame _ _ _ G z) as (_ & _ & _ & E); [|rewrite E; now apply t_attr].
        intro Hin. apply Hz. apply (based_new s); [assumption|]. eapply grown_is_new; eassumption.
      - intros l Hl. rewrite (w_lists _ _ _ G) by (pose proof (t_nextl s B); lia). now apply t_lists.
    Qed.
    Lemma based_value s z f : based s -> ~ is_new s0 z -> attr_value s z f = attr_value s0 z f.
    Proof.
      intros B Hz. unfold attr_value. rewrite (t_attr s B) by assumption. destruct (attrs s0 z f) as [[p|l]|] eqn:E; auto.
      rewrite (t_lists s B); [reflexivity|]. exact (o_lists M alloc s0 H0 z f l E).
    Qed.

    (** an object in a reference is not new *)
    Lemma held_old o f x : In x (slot g0 o f) -> ~ is_new s0 x.
    Proof. intros H N. exact (b_free _ _ (o_blank M alloc s0 H0 x N) o f H). Qed.
    Lemma child_old x y : child g0 x y -> ~ is_new s0 y.
    Proof. intros (f & _ & _ & _ & _ & H). eapply held_old; eassumption. Qed.

    (** contents: the children through the features [fs] *)
    Definition contained_via (f : feature) : bool := copied f && negb (attribute X f) && f_cont f.

    (** the features [fs] of [x] were copied to [c] *)
    Record filled (s : cstate) (nw : list (obj * obj)) (x c : obj) (fs : list feature) : Prop := {
      l_slot : forall f, In f fs -> contained_via f = true -> Forall2 (fun y y' => In (y, y') nw) (slot g0 x f) (slot (graph s) c f);
      l_slot_none : forall f, ~ (In f fs /\ contained_via f = true) -> slot (graph s) c f = [];
      l_attr : forall f, In f fs -> attr_value s c f = if attribute X f && copied f then attr_value s0 x f else None;
      l_attr_none : forall f, ~ In f fs -> attrs s c f = None
    }.
    Lemma Forall2_weak {B C} (P Q : B -> C -> Prop) l1 l2 : (forall a b, P a b -> Q a b) -> Forall2 P l1 l2 -> Forall2 Q l1 l2.
    Proof. intros H. induction 1; constructor; auto. Qed.
    Lemma filled_frame s s' nw nw' x c fs : filled s nw x c fs -> (forall p, In p nw -> In p nw') ->
      (forall f, slot (graph s') c f = slot (graph s) c f) -> (forall f, attrs s' c f = attrs s c f) -> (forall f, attr_value s' c f = attr_value s c f) ->
      filled s' nw' x c fs.
    Proof.
      intros F Hn E1 E2 E3. constructor.
      - intros f Hf Hv. rewrite E1. eapply Forall2_weak; [|exact (l_slot _ _ _ _ _ F f Hf Hv)]. cbn. auto.
      - intros f Hf. rewrite E1. exact (l_slot_none _ _ _ _ _ F f Hf).
      - intros f Hf. rewrite E3. exact (l_attr _ _ _ _ _ F f Hf).
      - intros f Hf. rewrite E2. exact (l_attr_none _ _ _ _ _ F f Hf).
    Qed.
    Lemma filled_grown s s' nw nw' x c fs : good s -> filled s nw x c fs -> grown s s' nw' -> ~ In c (map snd nw') -> filled s' (nw' ++ nw) x c fs.
    Proof.
      intros Gs F G Hc. destruct (w_frame _ _ _ G c Hc) as (_ & _ & E1 & E2).
      apply (filled_frame s s' nw); auto.
      - intros p Hp. apply in_or_app. now right.
      - apply attr_frame; auto. exact (w_lists _ _ _ G).
    Qed.

    (** the result of copying the object [o] *)
    Record copy_done (s s' : cstate) (o c : obj) (nw : list (obj * obj)) : Prop := {
      d_grown : grown s s' nw;
      d_filled : forall x d, In (x, d) nw -> filled s' nw x d (features x);
      d_root : In (o, c) nw;
      d_free : container (graph s') c = None;
      d_keys : forall x, In x (map fst nw) <-> inside g0 o x;
      d_nodup : NoDup (map fst nw)
    }.
    (** the result of copying the objects [l] *)
    Record all_done (s s' : cstate) (l cs : list obj) (nw : list (obj * obj)) : Prop := {
      n_grown : grown s s' nw;
      n_filled : forall x d, In (x, d) nw -> filled s' nw x d (features x);
      n_roots : Forall2 (fun x c => In (x, c) nw) l cs;
      n_free : forall c, In c cs -> container (graph s') c = None;
      n_keys : forall x, In x (map fst nw) <-> exists o, In o l /\ inside g0 o x;
      n_nodup : NoDup (map fst nw)
    }.

    Lemma grown_refl s : good s -> grown s s [].
    Proof. intro G. constructor; auto; try lia; try tauto; try (intros; contradiction). constructor. Qed.

    Definition copy_works (cp : cstate -> obj -> cres (cstate * obj)) (o : obj) : Prop :=
      forall s, based s -> exists s' c nw, cp s o = Done (s', c) /\ copy_done s s' o c nw.

    Lemma copyAll_ok cp l : (forall o, In o l -> copy_works cp o) -> NoDup l ->
      (forall a b x, In a l -> In b l -> inside g0 a x -> inside g0 b x -> a = b) ->
      forall s, based s -> exists s' cs nw, copyAllWith cp s l = Done (s', cs) /\ all_done s s' l cs nw.
    Proof.
      induction l as [|o l IH]; intros Hcp Hnd Hsep s B; cbn [copyAllWith].
      - exists s, [], []. split; [reflexivity|]. constructor; cbn.
        + apply grown_refl. exact (t_good s B).
        + intros x d [].
        + constructor.
        + intros c [].
        + intro x. split; [intros []|]. intros (? & [] & _).
        + constructor.
      - inversion Hnd as [|? ? Ho Hl]; subst.
        destruct (Hcp o (or_introl eq_refl) s B) as (s1 & c & nw1 & -> & D). cbn [cbind].
        pose proof (d_grown _ _ _ _ _ D) as G1. pose proof (based_grown _ _ _ B G1) as B1.
        destruct (IH) with (s := s1) as (s2 & cs & nw2 & -> & N); auto.
        { intros; apply Hcp; now right. }
        { intros a b x Ha Hb. apply Hsep; now right. }
        cbn [cbind]. pose proof (n_grown _ _ _ _ _ N) as G2.
        assert (Hold : forall d, In d (map snd nw1) -> ~ In d (map snd nw2)).
        { intros d H1 H2. apply (grown_not_new _ _ _ _ G1 H1). eapply grown_is_new; eassumption. }
        exists s2, (c :: cs), (nw2 ++ nw1). split; [reflexivity|]. constructor.
        + eapply grown_trans; eassumption.
        + intros x d H. apply in_app_iff in H as [H|H].
          * apply (filled_frame s2 s2 nw2); auto; [exact (n_filled _ _ _ _ _ N x d H)|]. intros p Hp. apply in_or_app. now left.
          * apply (filled_grown s1); auto; [exact (t_good s1 B1)|exact (d_filled _ _ _ _ _ D x d H)|].
            apply Hold. apply in_map_iff. exists (x, d). auto.
        + constructor; [apply in_or_app; right; exact (d_root _ _ _ _ _ D)|].
          eapply Forall2_weak; [|exact (n_roots _ _ _ _ _ N)]. cbn. intros a b Hab. apply in_or_app. now left.
        + intros d [<-|Hd]; [|exact (n_free _ _ _ _ _ N d Hd)].
          destruct (w_frame _ _ _ G2 c) as (-> & _); [|exact (d_free _ _ _ _ _ D)].
          apply Hold. apply in_map_iff. exists (o, c). split; [reflexivity|exact (d_root _ _ _ _ _ D)].
        + intro x. rewrite map_app, in_app_iff, (n_keys _ _ _ _ _ N), (d_keys _ _ _ _ _ D). split.
          * intros [(a & Ha & Hx)|Hx]; [exists a; split; [now right|assumption]|exists o; split; [now left|assumption]].
          * intros (a & [<-|Ha] & Hx); [now right|left; eauto].
        + rewrite map_app. apply NoDup_app_iff. split; [exact (n_nodup _ _ _ _ _ N)|]. split; [exact (d_nodup _ _ _ _ _ D)|].
          intros x Hx Hy. apply (n_keys _ _ _ _ _ N) in Hx as (a & Ha & Hx). apply (d_keys _ _ _ _ _ D) in Hy.
          assert (a = o) by (apply (Hsep a o x); auto; [now right|now left]). subst. contradiction.
    Qed.

    Lemma grown_mod s s1 s2 nw : grown s s1 nw -> copies s2 = copies s1 -> nextObj s2 = nextObj s1 -> (nextList s1 <= nextList s2)%nat ->
      (forall z, ~ In z (map snd nw) ->
        container (graph s2) z = container (graph s1) z /\ containerFeatureID (graph s2) z = containerFeatureID (graph s1) z /\
        (forall f, slot (graph s2) z f = slot (graph s1) z f) /\ (forall f, attrs s2 z f = attrs s1 z f)) ->
      internalResource (graph s2) = internalResource (graph s1) /\ contents (graph s2) = contents (graph s1) /\ loaded (graph s2) = loaded (graph s1) ->
      (forall l, (l < nextList s1)%nat -> lists s2 l = lists s1 l) ->
      (forall c f l, In c (map snd nw) -> attrs s2 c f = Some (CList l) -> attrs s1 c f = Some (CList l) \/ (nextList s1 <= l)%nat) ->
      good s2 -> grown s s2 nw.
    Proof.
      intros G E1 E2 E3 E4 E5 E6 E7 E8. constructor; auto.
      - rewrite E1. exact (w_copies _ _ _ G).
      - rewrite E2. exact (w_next _ _ _ G).
      - pose proof (w_nextl _ _ _ G). lia.
      - rewrite E2. exact (w_vals _ _ _ G).
      - exact (w_valsnd _ _ _ G).
      - intros z Hz. destruct (w_frame _ _ _ G z Hz) as (F1 & F2 & F3 & F4). destruct (E4 z Hz) as (K1 & K2 & K3 & K4).
        split; [congruence|]. split; [congruence|]. split; intro f; [now rewrite K3|now rewrite K4].
      - destruct (w_res _ _ _ G) as (F1 & F2 & F3). destruct E5 as (K1 & K2 & K3). repeat split; congruence.
      - intros l Hl. rewrite E6 by (pose proof (w_nextl _ _ _ G); lia). now apply (w_lists _ _ _ G).
      - intros c f l Hc E. destruct (E7 c f l Hc E) as [E'|E']; [exact (w_lists_new _ _ _ G c f l Hc E')|].
        pose proof (w_nextl _ _ _ G). lia.
    Qed.

    (** the features [fs] of [o] were copied *)
    Record part (s s1 : cstate) (o c : obj) (nw : list (obj * obj)) (fs : list feature) : Prop := {
      p_grown : grown s s1 nw;
      p_filled : forall x d, In (x, d) nw -> d <> c -> filled s1 nw x d (features x);
      p_self : filled s1 nw o c fs;
      p_in : In (o, c) nw;
      p_free : container (graph s1) c = None;
      p_keys : forall x, In x (map fst nw) <-> x = o \/ exists f y, In f fs /\ contained_via f = true /\ In y (slot g0 o f) /\ inside g0 y x;
      p_nodup : NoDup (map fst nw)
    }.
    Lemma part_based s s1 o c nw fs : based s -> part s s1 o c nw fs -> based s1.
    Proof. intros B P. eapply based_grown; [exact B|exact (p_grown _ _ _ _ _ _ P)]. Qed.
    Lemma in_snd (x c : obj) nw : In (x, c) nw -> In c (map snd nw).
    Proof. intro H. apply in_map_iff. exists (x, c). auto. Qed.
    Lemma in_fst (x c : obj) nw : In (x, c) nw -> In x (map fst nw).
    Proof. intro H. apply in_map_iff. exists (x, c). auto. Qed.

    Lemma part_skip s s1 o c nw fs f : part s s1 o c nw fs -> ~ In f fs -> contained_via f = false -> attribute X f && copied f = false ->
      part s s1 o c nw (f :: fs).
    Proof.
      intros P Hf Hv Ha. destruct P as [P1 P2 P3 P4 P5 P6 P7]. constructor; auto.
      - constructor.
        + intros k [<-|Hk] Hv'; [congruence|]. exact (l_slot _ _ _ _ _ P3 k Hk Hv').
        + intros k Hk. apply (l_slot_none _ _ _ _ _ P3). intros [K1 K2]. apply Hk. split; [now right|assumption].
        + intros k [<-|Hk]; [|exact (l_attr _ _ _ _ _ P3 k Hk)]. rewrite Ha. unfold attr_value. now rewrite (l_attr_none _ _ _ _ _ P3 f Hf).
        + intros k Hk. apply (l_attr_none _ _ _ _ _ P3). intro. apply Hk. now right.
      - intro x. rewrite P6. split; (intros [->|(k & y & Hk & Hv' & Hy & Hx)]; [now left|right]).
        + exists k, y. repeat split; auto. now right.
        + destruct Hk as [<-|Hk]; [congruence|]. exists k, y. auto.
    Qed.

    (** storing an attribute in a copy *)
    Lemma part_attr_gen s s1 s2 o c nw fs f v : based s -> ~ is_new s0 o -> part s s1 o c nw fs -> ~ In f fs -> contained_via f = false -> attribute X f && copied f = true ->
      graph s2 = graph s1 -> copies s2 = copies s1 -> nextObj s2 = nextObj s1 -> (nextList s1 <= nextList s2)%nat ->
      (forall l, (l < nextList s1)%nat -> lists s2 l = lists s1 l) ->
      attrs s2 = upd (attrs s1) c (upd (attrs s1 c) f (Some v)) ->
      (forall l, v = CList l -> (nextList s1 <= l < nextList s2)%nat) ->
      attr_value s2 c f = attr_value s0 o f ->
      part s s2 o c nw (f :: fs).
    Proof.
      intros B Ho P Hf Hv Ha Eg Ec En El Ell Ea Hl Hval. pose proof (part_based _ _ _ _ _ _ B P) as B1.
      destruct P as [P1 P2 P3 P4 P5 P6 P7].
      assert (Hne : forall z, z <> c -> attrs s2 z = attrs s1 z) by (intros z Hz; rewrite Ea; now apply upd_ne).
      assert (Hc : In c (map snd nw)) by (eapply in_snd; eassumption).
      assert (Hcell : forall z k l, attrs s2 z k = Some (CList l) -> attrs s1 z k = Some (CList l) \/ (z = c /\ k = f /\ v = CList l)).
      { intros z k l. rewrite Ea. unfold upd. destruct (Nat.eqb_spec z c) as [->|]; [|auto].
        destruct (Nat.eqb_spec k f) as [->|]; [|auto]. intros [= ->]. auto. }
      assert (Gs2 : good s2).
      { destruct (t_good s1 B1) as [O1 O2 O3 O4]. constructor.
        - now rewrite Eg.
        - intros z Hz. assert (Hz' : is_new s1 z) by (unfold CopySpec.is_new in *; now rewrite En in Hz).
          destruct (O2 z Hz') as [b1 b2 b3 b4 b5]. constructor; rewrite ?Eg; auto.
          rewrite Hne; [assumption|]. intros ->. exact (grown_not_new _ _ _ _ P1 Hc Hz').
        - intros z k l E. destruct (Hcell z k l E) as [E'|(-> & -> & ->)]; [pose proof (O3 z k l E'); lia|]. apply (Hl l eq_refl).
        - intros z k z' k' l E E'. destruct (Hcell z k l E) as [F|(-> & -> & Hv1)]; destruct (Hcell z' k' l E') as [F'|(-> & -> & Hv2)].
          + exact (O4 _ _ _ _ _ F F').
          + pose proof (O3 z k l F). pose proof (Hl l Hv2). lia.
          + pose proof (O3 z' k' l F'). pose proof (Hl l Hv1). lia.
          + split; reflexivity. }
      assert (G2 : grown s s2 nw).
      { apply (grown_mod s s1 s2 nw P1); auto; try (rewrite Eg; auto).
        - intros z Hz. rewrite Hne by (intros ->; contradiction). repeat split; reflexivity.
        - intros d k l Hd E. destruct (Hcell d k l E) as [E'|(-> & -> & ->)]; [now left|]. right. apply (Hl l eq_refl). }
      constructor; auto.
      - intros x d Hd Hdc. apply (filled_frame s1 s2 nw); auto.
        + now rewrite Eg.
        + now rewrite (Hne d Hdc).
        + apply attr_frame; [now rewrite (Hne d Hdc)|exact (t_good s1 B1)|exact Ell].
      - constructor.
        + intros k [<-|Hk] Hv'; [congruence|]. rewrite Eg. exact (l_slot _ _ _ _ _ P3 k Hk Hv').
        + intros k Hk. rewrite Eg. apply (l_slot_none _ _ _ _ _ P3). intros [K1 K2]. apply Hk. split; [now right|assumption].
        + intros k [<-|Hk]; [now rewrite Ha|].
          assert (Hkf : k <> f) by (intros ->; contradiction).
          rewrite <- (l_attr _ _ _ _ _ P3 k Hk). unfold attr_value. rewrite Ea, upd_eq, upd_ne by assumption.
          destruct (attrs s1 c k) as [[p|l]|] eqn:E; auto. rewrite Ell; [reflexivity|]. exact (o_lists M alloc s1 (t_good s1 B1) c k l E).
        + intros k Hk. rewrite Ea, upd_eq, upd_ne by (intros ->; apply Hk; now left).
          apply (l_attr_none _ _ _ _ _ P3). intro. apply Hk. now right.
      - now rewrite Eg.
      - intro x. rewrite P6. split; (intros [->|(k & y & Hk & Hv' & Hy & Hx)]; [now left|right]).
        + exists k, y. repeat split; auto. now right.
        + destruct Hk as [<-|Hk]; [congruence|]. exists k, y. auto.
    Qed.

    Lemma part_attribute s s1 o c nw fs f : based s -> ~ is_new s0 o -> part s s1 o c nw fs -> ~ In f fs -> copied f = true -> attribute X f = true ->
      part s (copyAttribute Generated s1 f o c) o c nw (f :: fs).
    Proof.
      intros B Ho P Hf Hc Ha. pose proof (part_based _ _ _ _ _ _ B P) as B1.
      assert (Hv : contained_via f = false) by (unfold contained_via; rewrite Ha; now rewrite andb_false_r).
      assert (Hac : attribute X f && copied f = true) by now rewrite Ha, Hc.
      unfold copyAttribute. pose proof (t_attr s1 B1 o f Ho) as E.
      assert (Hval : forall l, attrs s1 o f = Some (CList l) -> lists s1 l = lists s0 l).
      { intros l El. apply (t_lists s1 B1). rewrite E in El. exact (o_lists M alloc s0 H0 o f l El). }
      destruct (attrs s1 o f) as [[p|l]|] eqn:E1.
      - apply (part_attr_gen s s1 _ o c nw fs f (CPrim p)); auto.
        + discriminate.
        + unfold attr_value, setAttr. cbn. rewrite !upd_eq, <- E. reflexivity.
      - apply (part_attr_gen s s1 _ o c nw fs f (CList (nextList s1))); auto; cbn; try lia.
        + intros k Hk. apply upd_ne. lia.
        + intros k [= <-]. lia.
        + unfold attr_value, setAttr. cbn. rewrite !upd_eq, <- E. now rewrite (Hval l eq_refl).
      - destruct P as [P1 P2 P3 P4 P5 P6 P7]. constructor; auto.
        + constructor.
          * intros k [<-|Hk] Hv'; [congruence|]. exact (l_slot _ _ _ _ _ P3 k Hk Hv').
          * intros k Hk. apply (l_slot_none _ _ _ _ _ P3). intros [K1 K2]. apply Hk. split; [now right|assumption].
          * intros k [<-|Hk]; [|exact (l_attr _ _ _ _ _ P3 k Hk)]. rewrite Hac. unfold attr_value. now rewrite (l_attr_none _ _ _ _ _ P3 f Hf), <- E.
          * intros k Hk. apply (l_attr_none _ _ _ _ _ P3). intro. apply Hk. now right.
        + intro x. rewrite P6. split; (intros [->|(k & y & Hk & Hv' & Hy & Hx)]; [now left|right]).
          * exists k, y. repeat split; auto. now right.
          * destruct Hk as [<-|Hk]; [congruence|]. exists k, y. auto.
    Qed.

    (** the copies [cs] of the contents [l] of [o] enter [c] *)
    Lemma part_enter s s1 s2 o c nw nw2 fs f cs g' : based s -> ~ is_new s0 o -> part s s1 o c nw fs -> ~ In f fs -> contained_via f = true -> In f (features o) ->
      all_done s1 s2 (slot g0 o f) cs nw2 -> reachable M g' -> entered (graph s2) g' c f cs ->
      (forall a k, In a (map fst nw) -> In k (slot g0 o f) -> inside g0 k a -> False) ->
      part s (withGraph s2 g') o c (nw2 ++ nw) (f :: fs).
    Proof.
      intros B Ho P Hf Hv Hfo N Rg E Hapart. pose proof (part_based _ _ _ _ _ _ B P) as B1.
      destruct P as [P1 P2 P3 P4 P5 P6 P7]. destruct N as [N1 N2 N3 N4 N5 N6]. destruct E as [E1 E2 E3 E4 E5].
      pose proof (based_grown _ _ _ B1 N1) as B2.
      assert (Hc : In c (map snd nw)) by (eapply in_snd; eassumption).
      assert (Hold : forall d, In d (map snd nw) -> ~ In d (map snd nw2)).
      { intros d D1 D2. apply (grown_not_new _ _ _ _ P1 D1). eapply grown_is_new; eassumption. }
      assert (Hcs : forall d, In d cs -> In d (map snd nw2)).
      { clear - N3. induction N3 as [|x d l cs Hx _ IH]; intros z Hz; destruct Hz; [subst; eapply in_snd; eassumption|auto]. }
      pose proof (grown_trans _ _ _ _ _ P1 N1) as G2.
      assert (Gs : good (withGraph s2 g')).
      { destruct (t_good s2 B2) as [O1 O2 O3 O4]. constructor; auto.
        intros z Hz. destruct (O2 z Hz) as [b1 b2 b3 b4 b5].
        assert (Hz1 : z <> c) by (intros ->; apply (grown_not_new _ _ _ _ G2 (in_snd o c _ (in_or_app _ _ _ (or_intror P4)))); exact Hz).
        assert (Hz2 : ~ In z cs) by (intro H; apply (grown_not_new _ _ _ _ N1 (Hcs z H)); exact Hz).
        constructor; cbn; auto.
        - intro k. rewrite E2 by auto. apply b1.
        - destruct (E4 z Hz2) as [-> _]. exact b2.
        - destruct E5 as (-> & _). exact b3.
        - intros a k Hin. destruct (slot_dec a k c f) as [[-> ->]|D].
          + rewrite E1 in Hin. contradiction.
          + rewrite E2 in Hin by assumption. exact (b4 a k Hin). }
      assert (G3 : grown s (withGraph s2 g') (nw2 ++ nw)).
      { apply (grown_mod s s2 _ _ G2); auto; cbn.
        intros z Hz. rewrite map_app, in_app_iff in Hz.
        assert (Hz1 : z <> c) by (intros ->; tauto). assert (Hz2 : ~ In z cs) by (intro; apply Hz; left; auto).
        destruct (E4 z Hz2) as [-> ->]. repeat split; auto. }
      assert (F2 : forall x d, In (x, d) (nw2 ++ nw) -> d <> c -> filled s2 (nw2 ++ nw) x d (features x)).
      { intros x d Hd Hdc. apply in_app_iff in Hd as [Hd|Hd].
        - apply (filled_frame s2 s2 nw2); auto. intros p Hp. apply in_or_app. now left.
        - apply (filled_grown s1); auto; [exact (t_good s1 B1)|]. apply Hold. eapply in_snd; eassumption. }
      pose proof (filled_grown s1 s2 nw nw2 o c fs (t_good s1 B1) P3 N1 (Hold c Hc)) as F3.
      constructor; auto.
      - intros x d Hd Hdc. apply (filled_frame s2 _ (nw2 ++ nw)); auto.
      - constructor; cbn.
        + intros k [<-|Hk] Hv'.
          * rewrite E1. eapply Forall2_weak; [|exact N3]. cbn. intros. apply in_or_app. now left.
          * rewrite E2 by (right; intros ->; contradiction). exact (l_slot _ _ _ _ _ F3 k Hk Hv').
        + intros k Hk. rewrite E2; [|right; intros ->; apply Hk; split; [now left|assumption]].
          apply (l_slot_none _ _ _ _ _ F3). intros [K1 K2]. apply Hk. split; [now right|assumption].
        + intros k [<-|Hk]; [|exact (l_attr _ _ _ _ _ F3 k Hk)].
          assert (Ha : attribute X f = false). { unfold contained_via in Hv. destruct (attribute X f); [rewrite andb_false_r in Hv; discriminate|reflexivity]. }
          rewrite Ha. cbn. unfold attr_value. cbn. now rewrite (l_attr_none _ _ _ _ _ F3 f Hf).
        + intros k Hk. apply (l_attr_none _ _ _ _ _ F3). intro. apply Hk. now right.
      - apply in_or_app. now right.
      - cbn. assert (Hcc : ~ In c cs) by (intro H; exact (Hold c Hc (Hcs c H))).
        destruct (E4 c Hcc) as [-> _]. destruct (w_frame _ _ _ N1 c (Hold c Hc)) as (-> & _). exact P5.
      - intro x. rewrite map_app, in_app_iff, N5, P6. split.
        + intros [(y & Hy & Hx)|[->|(k & y & Hk & Hv' & Hy & Hx)]]; [right; exists f, y|now left|right; exists k, y]; repeat split; auto; [now left|now right].
        + intros [->|(k & y & [<-|Hk] & Hv' & Hy & Hx)]; [right; now left|left; eauto|right; right; exists k, y; auto].
      - rewrite map_app. apply NoDup_app_iff. split; [assumption|]. split; [assumption|].
        intros a Ha Hb. apply N5 in Ha as (k & Hk & Ha). exact (Hapart a k Hb Hk Ha).
    Qed.

    Lemma part_empty s s1 o c nw fs f : part s s1 o c nw fs -> ~ In f fs -> contained_via f = true -> slot g0 o f = [] ->
      part s s1 o c nw (f :: fs).
    Proof.
      intros [P1 P2 P3 P4 P5 P6 P7] Hf Hv Hs. constructor; auto.
      - constructor.
        + intros k [<-|Hk] Hv'; [|exact (l_slot _ _ _ _ _ P3 k Hk Hv')].
          rewrite Hs, (l_slot_none _ _ _ _ _ P3 f) by tauto. constructor.
        + intros k Hk. apply (l_slot_none _ _ _ _ _ P3). intros [K1 K2]. apply Hk. split; [now right|assumption].
        + intros k [<-|Hk]; [|exact (l_attr _ _ _ _ _ P3 k Hk)].
          assert (Ha : attribute X f = false). { unfold contained_via in Hv. destruct (attribute X f); [rewrite andb_false_r in Hv; discriminate|reflexivity]. }
          rewrite Ha. cbn. unfold attr_value. now rewrite (l_attr_none _ _ _ _ _ P3 f Hf).
        + intros k Hk. apply (l_attr_none _ _ _ _ _ P3). intro. apply Hk. now right.
      - intro x. rewrite P6. split; (intros [->|(k & y & Hk & Hv' & Hy & Hx)]; [now left|right]).
        + exists k, y. repeat split; auto. now right.
        + destruct Hk as [<-|Hk]; [rewrite Hs in Hy; destruct Hy|]. exists k, y. auto.
    Qed.

    Lemma NoDup_snd_key (nw : list (obj * obj)) x y d : NoDup (map snd nw) -> In (x, d) nw -> In (y, d) nw -> x = y.
    Proof.
      induction nw as [|[a b] nw IH]; cbn; [intros _ []|]. intros Hnd. inversion Hnd as [|? ? H1 H2]; subst.
      intros [E|Hx] [E'|Hy]; auto.
      - congruence.
      - injection E as -> ->. exfalso. apply H1. eapply in_snd; eassumption.
      - injection E' as -> ->. exfalso. apply H1. eapply in_snd; eassumption.
    Qed.
    Lemma NoDup_copies (nw : list (obj * obj)) l cs : NoDup (map snd nw) -> NoDup l -> Forall2 (fun x c => In (x, c) nw) l cs -> NoDup cs.
    Proof.
      intros Hs Hl H. revert Hl. induction H as [|x c l cs Hx H IH]; intro Hl; [constructor|]. inversion Hl as [|? ? H1 H2]; subst.
      constructor; [|now apply IH]. intro Hc. apply H1.
      assert (exists y, In y l /\ In (y, c) nw) as (y & Hy & Hyc).
      { clear - H Hc. induction H as [|y d l cs Hy _ IH]; destruct Hc; [subst; exists y; split; [now left|assumption]|].
        destruct (IH H) as (z & Hz & Hzc). exists z. split; [now right|assumption]. }
      now rewrite (NoDup_snd_key nw x y c Hs Hx Hyc).
    Qed.

    Lemma G0 : GInv g0.
    Proof. exact (proj1 (reachable_ok M W g0 (o_reach M alloc s0 H0))). Qed.
    Lemma via_child o f y : In f (features o) -> contained_via f = true -> In y (slot g0 o f) -> child g0 o y.
    Proof.
      intros Hf Hv Hy. unfold contained_via in Hv. apply andb_true_iff in Hv as [Hv Hc]. apply andb_true_iff in Hv as [Hv Ha].
      apply negb_true_iff in Ha. exists f. auto.
    Qed.

    Lemma part_apart s s1 o c nw fs f : part s s1 o c nw fs -> ~ In f fs -> (forall k, In k fs -> In k (features o)) -> In f (features o) -> contained_via f = true ->
      forall a k, In a (map fst nw) -> In k (slot g0 o f) -> inside g0 k a -> False.
    Proof.
      intros P Hf Hfs Hfo Hv a k Ha Hk Hka. pose proof (via_child o f k Hfo Hv Hk) as Hch.
      apply (p_keys _ _ _ _ _ _ P) in Ha as [->|(q & y & Hq & Hvq & Hy & Hya)].
      - apply (inside_rank g0 rank HR) in Hka. apply HR in Hch. lia.
      - pose proof (via_child o q y (Hfs q Hq) Hvq Hy) as Hch'.
        assert (k = y) by (eapply (siblings_apart g0 (o_reach M alloc s0 H0) rank); eassumption). subst y.
        assert (cont_via : forall h, contained_via h = true -> f_cont h = true). { intros h Hh. unfold contained_via in Hh. now apply andb_true_iff in Hh. }
        destruct (place_unique M W g0 G0 k o f o q) as [_ E]; auto. subst. contradiction.
    Qed.

    Lemma containment_ok cp s s1 o c nw fs f : based s -> ~ is_new s0 o -> part s s1 o c nw fs -> ~ In f fs -> (forall k, In k fs -> In k (features o)) ->
      contained_via f = true -> In f (features o) -> (forall y, In y (slot g0 o f) -> copy_works cp y) ->
      exists s2 nw', copyContainment M Generated cp s1 f o c = Done s2 /\ part s s2 o c nw' (f :: fs).
    Proof.
      intros B Ho P Hf Hfs Hv Hfo Hcp. pose proof (part_based _ _ _ _ _ _ B P) as B1.
      assert (Hc : f_cont f = true) by (unfold contained_via in Hv; now apply andb_true_iff in Hv).
      pose proof (cont_not_container M W f Hc) as Hnc.
      unfold copyContainment. rewrite (eGet_own M W) by assumption. rewrite Hnc. rewrite (t_slot s1 B1) by assumption. cbn [orPanic cbind].
      pose proof (part_apart _ _ _ _ _ _ _ P Hf Hfs Hfo Hv) as Hapart.
      assert (Hcl : classOf M c = classOf M o).
      { destruct (w_vals _ _ _ (p_grown _ _ _ _ _ _ P) o c (p_in _ _ _ _ _ _ P)) as (k & _ & ->). apply (a_class M alloc A). }
      assert (Hfc : In f (features c)) by now rewrite (features_class o c Hcl).
      assert (Hready : forall s2 cs nw2, all_done s1 s2 (slot g0 o f) cs nw2 ->
        slot (graph s2) c f = [] /\ NoDup cs /\ forall x, In x cs -> link_typed c f x /\ container (graph s2) x = None /\ internalResource (graph s2) x = None).
      { intros s2 cs nw2 [N1 N2 N3 N4 N5 N6].
        assert (Hcn : ~ In c (map snd nw2)).
        { intro H. apply (grown_not_new _ _ _ _ (p_grown _ _ _ _ _ _ P) (in_snd _ _ _ (p_in _ _ _ _ _ _ P))). eapply grown_is_new; eassumption. }
        split; [|split].
        - destruct (w_frame _ _ _ N1 c Hcn) as (_ & _ & E & _). rewrite E. apply (l_slot_none _ _ _ _ _ (p_self _ _ _ _ _ _ P)). tauto.
        - apply (NoDup_copies nw2 (slot g0 o f)); auto; [exact (w_valsnd _ _ _ N1)|apply (g_nodup M g0 G0)].
        - intros x Hx. split; [|split; [now apply N4|]].
          + assert (exists y, In y (slot g0 o f) /\ In (y, x) nw2) as (y & Hy & Hyx).
            { clear - N3 Hx. induction N3 as [|y d l cs Hy _ IH]; destruct Hx; [subst; exists y; split; [now left|assumption]|].
              destruct (IH H) as (z & Hz & Hzc). exists z. split; [now right|assumption]. }
            destruct (w_vals _ _ _ N1 y x Hyx) as (k & _ & ->).
            destruct (g_typed M g0 G0 _ _ _ Hy) as [[_ T] _]. split; [assumption|]. intros q Hq.
            rewrite (features_class y); [now apply T|]. apply (a_class M alloc A).
          + destruct (w_res _ _ _ N1) as (-> & _).
            assert (In x (map snd nw2)) as Hx'.
            { clear - N3 Hx. induction N3 as [|y d l cs Hy _ IH]; destruct Hx; [subst; eapply in_snd; eassumption|auto]. }
            exact (b_resource _ _ (o_blank M alloc s1 (t_good s1 B1) x (grown_is_new _ _ _ _ N1 Hx'))). }
      destruct (slot g0 o f) as [|x l] eqn:Es.
      { exists s1, nw. split; [reflexivity|]. now apply part_empty. }
      rewrite <- Es in *. destruct (f_many f) eqn:Em.
      - destruct (copyAll_ok cp (slot g0 o f)) with (s := s1) as (s2 & cs & nw2 & -> & N); auto.
        + apply (g_nodup M g0 G0).
        + intros a b z Ha Hb. eapply (siblings_apart g0 (o_reach M alloc s0 H0) rank o); auto; eapply via_child; eassumption.
        + cbn [cbind]. destruct (Hready _ _ _ N) as (Hs2 & Hnd & Hl).
          destruct (setMany_new M W (graph s2) c f cs) as (g' & -> & Rg & E); auto.
          { exact (o_reach M alloc s2 (w_good _ _ _ (n_grown _ _ _ _ _ N))). }
          cbn [orPanic cbind]. eexists _, _. split; [reflexivity|]. eapply part_enter; eassumption.
      - assert (El : slot g0 o f = [x]).
        { pose proof (g_single M g0 G0 o f Em) as Hs. rewrite Es in Hs |- *. destruct l; [reflexivity|cbn in Hs; lia]. }
        destruct (Hcp x) with (s := s1) as (s2 & x' & nw2 & -> & D); [rewrite El; now left|assumption|]. cbn [cbind].
        assert (N : all_done s1 s2 (slot g0 o f) [x'] nw2).
        { rewrite El. destruct D as [D1 D2 D3 D4 D5 D6]. constructor; auto.
          - intros d [<-|[]]. assumption.
          - intro z. rewrite D5. split; [intro Hz; exists x; split; [now left|assumption]|]. intros (a & [<-|[]] & Hz). assumption. }
        destruct (Hready _ _ _ N) as (Hs2 & Hnd & Hl). destruct (Hl x' (or_introl eq_refl)) as (T1 & T2 & T3).
        destruct (setOne_new M W (graph s2) c f x') as (g' & -> & Rg & E); auto.
        { exact (o_reach M alloc s2 (w_good _ _ _ (n_grown _ _ _ _ _ N))). }
        cbn [orPanic cbind]. eexists _, _. split; [reflexivity|]. eapply part_enter; eassumption.
    Qed.

    Lemma copyFeatures_ok cp s o c : based s -> ~ is_new s0 o -> forall rest fs s1 nw, part s s1 o c nw fs -> NoDup rest ->
      (forall f, In f rest -> ~ In f fs) -> (forall f, In f rest \/ In f fs -> In f (features o)) ->
      (forall f y, In f (features o) -> contained_via f = true -> In y (slot g0 o f) -> copy_works cp y) ->
      exists s2 nw2, copyFeatures M X Generated cp s1 rest o c = Done s2 /\ part s s2 o c nw2 (rev rest ++ fs).
    Proof.
      intros B Ho. induction rest as [|f rest IH]; intros fs s1 nw P Hnd Hd Hin Hcp; cbn [copyFeatures].
      - exists s1, nw. split; [reflexivity|exact P].
      - inversion Hnd as [|? ? Hf Hr]; subst.
        assert (exists s2 nw', copyFeature M X Generated cp s1 f o c = Done s2 /\ part s s2 o c nw' (f :: fs)) as (s2 & nw' & -> & P').
        { unfold copyFeature. destruct (copied f) eqn:Ec.
          - destruct (attribute X f) eqn:Ea.
            + eexists _, nw. split; [reflexivity|]. apply part_attribute; auto. apply Hd. now left.
            + destruct (GraphModel.f_cont M f) eqn:Ef.
              * assert (contained_via f = true) by (unfold contained_via; now rewrite Ec, Ea, Ef).
                eapply (containment_ok cp s); eauto.
                -- apply Hd. now left.
                -- apply Hin. left. now left.
                -- intros y Hy. apply (Hcp f y); auto. apply Hin. left. now left.
              * eexists _, nw. split; [reflexivity|]. apply part_skip; auto.
                -- apply Hd. now left.
                -- unfold contained_via. now rewrite Ef, andb_false_r.
                -- now rewrite Ea.
          - eexists _, nw. split; [reflexivity|]. apply part_skip; auto.
            + apply Hd. now left.
            + unfold contained_via. now rewrite Ec.
            + rewrite Ec. apply andb_false_r. }
        cbn [cbind]. destruct (IH (f :: fs) s2 nw' P') as (s3 & nw3 & E & P3); auto.
        + intros k Hk [<-|Hk']; [contradiction|]. apply (Hd k); [now right|assumption].
        + intros k [Hk|[<-|Hk]]; apply Hin; [left; now right|left; now left|now right].
        + exists s3, nw3. split; [exact E|]. cbn [rev]. rewrite <- app_assoc. exact P3.
    Qed.

    Lemma filled_iff s nw x c fs fs' : (forall f, In f fs <-> In f fs') -> filled s nw x c fs -> filled s nw x c fs'.
    Proof.
      intros H [F1 F2 F3 F4]. constructor.
      - intros f Hf. apply F1. now apply H.
      - intros f Hf. apply F2. rewrite H. exact Hf.
      - intros f Hf. apply F3. now apply H.
      - intros f Hf. apply F4. now rewrite H.
    Qed.

    Lemma copy_ok n : forall o, (rank o < n)%nat -> ~ is_new s0 o -> copy_works (copy M X Generated alloc n) o.
    Proof.
      induction n as [|n IH]; intros o Hn Ho s B; [lia|]. cbn [copy newCopy].
      set (c := alloc (nextObj s) (classOf M o)).
      set (s1 := CS (graph s) (attrs s) (lists s) (Datatypes.S (nextObj s)) (nextList s) ((o, c) :: copies s)).
      assert (Hcn : is_new s c) by (exists (nextObj s), (classOf M o); split; [lia|reflexivity]).
      pose proof (o_blank M alloc s (t_good s B) c Hcn) as [b1 b2 b3 b4 b5].
      assert (P : part s s1 o c [(o, c)] []).
      { constructor.
        - constructor; cbn; auto.
          + intros x d [[= <- <-]|[]]. exists (nextObj s). split; [lia|reflexivity].
          + constructor; [intros []|constructor].
          + intros d k l [<-|[]]. rewrite b5. discriminate.
          + destruct (t_good s B) as [O1 O2 O3 O4]. constructor; auto. intros z Hz.
            assert (Hz' : is_new s z). { destruct Hz as (k & d & Hk & ->). exists k, d. split; [cbn in Hk; lia|reflexivity]. }
            destruct (O2 z Hz') as [c1 c2 c3 c4 c5]. constructor; auto.
        - intros x d [[= <- <-]|[]] Hne. contradiction.
        - constructor; cbn; auto; intros f [].
        - now left.
        - exact b2.
        - intro x. cbn. split; [intros [<-|[]]; now left|]. intros [->|(f & y & [] & _)]. now left.
        - constructor; [intros []|constructor]. }
      destruct (copyFeatures_ok (copy M X Generated alloc n) s o c B Ho (features o) [] s1 _ P) as (s2 & nw & E & P2).
      + apply L.
      + intros f _ [].
      + intros f [H|[]]. exact H.
      + intros f y Hf Hv Hy. pose proof (via_child o f y Hf Hv Hy) as Hch. apply IH.
        * apply HR in Hch. lia.
        * eapply child_old; eassumption.
      + fold s1. rewrite E. cbn [cbind]. exists s2, c, nw. split; [reflexivity|].
        rewrite app_nil_r in P2. destruct P2 as [P3 P4 P5 P6 P7 P8 P9].
        constructor; auto.
        * intros x d Hd. destruct (Nat.eq_dec d c) as [->|Hdc]; [|now apply P4].
          assert (x = o) by (eapply NoDup_snd_key; [exact (w_valsnd _ _ _ P3)| |]; eassumption). subst x.
          eapply filled_iff; [|exact P5]. intro f. symmetry. apply in_rev.
        * intro x. rewrite P8. split.
          -- intros [->|(f & y & Hf & Hv & Hy & Hx)]; [constructor|].
             apply (inside_trans g0 o y); [|assumption]. eapply inside_child; [constructor|]. apply in_rev in Hf. eapply via_child; eassumption.
          -- intro Hx. destruct (inside_proper g0 o x Hx) as [->|(y & (f & Hf & Hc & Ha & Hct & Hy) & Hyx)]; [now left|].
             right. exists f, y. split; [now apply -> in_rev|]. split; [|auto].
             unfold contained_via. now rewrite Hc, Ha, Hct.
    Qed.
  End Base.
End CopyProofs.
