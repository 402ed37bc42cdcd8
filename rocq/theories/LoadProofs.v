From Verif Require Import Base LoadModel LoadSpec.

Lemma find_ext_in {A} (p q : A -> bool) l : (forall x, In x l -> p x = q x) -> find p l = find q l.
Proof.
  induction l as [|x l IH]; intro H; [reflexivity|]. cbn. rewrite (H x) by (now left). rewrite IH; [reflexivity|]. intros y Hy. apply H. now right.
Qed.
Lemma find_app {A} (p : A -> bool) l m : find p (l ++ m) = match find p l with Some x => Some x | None => find p m end.
Proof. induction l as [|x l IH]; [reflexivity|]. cbn. now destruct (p x). Qed.

Section Load.
  Context (W : world).
  Notation raw := (raw W). Notation norm := (norm W). Notation pack := (pack W).
  Notation keyOf := (keyOf W). Notation stands := (stands W). Notation answer := (answer W). Notation distinct := (distinct W).

  Lemma upd_eq {X} (g : nat -> X) k v : upd g k v k = v.
  Proof. unfold upd. now rewrite Nat.eqb_refl. Qed.
  Lemma upd_ne {X} (g : nat -> X) k v m : m <> k -> upd g k v m = g m.
  Proof. unfold upd. destruct (Nat.eqb_spec m k); [contradiction|reflexivity]. Qed.

  Record inv (s : state) : Prop := {
    i_cache : forall c p r, cache s = Some c -> c p = Some r -> answer s p = Some r;
    i_pack : forall t r, pack t = Some r -> loaded s r = true /\ (r < next s)%nat;
    i_res : forall r, In r (resources s) -> (r < next s)%nat /\ uri s r <> None;
    i_nodup : NoDup (resources s);
    i_loading : forall r, loading s r = true -> loaded s r = true }.

  Record ext (D : nat -> Prop) (s s' : state) : Prop := {
    e_res : exists l, resources s' = resources s ++ l /\ forall r, In r l -> (next s <= r)%nat;
    e_next : (next s <= next s')%nat;
    e_uri : forall r, (r < next s)%nat -> uri s' r = uri s r;
    e_loaded : forall r, (r < next s)%nat -> loaded s r = true -> loaded s' r = true;
    e_keep : forall r, (r < next s)%nat -> loaded s r = true -> ~ D r -> roots s' r = roots s r /\ errors s' r = errors s r;
    e_dec : exists l, decoded s' = decoded s ++ l /\ NoDup l
              /\ forall r, In r l -> ((r < next s)%nat -> loaded s r = false) /\ (r < next s')%nat /\ loaded s' r = true;
    e_loading : forall r, (r < next s')%nat -> loading s' r = if (r <? next s)%nat then loading s r else false }.

  Lemma ext_refl D s : ext D s s.
  Proof.
    constructor; auto.
    - exists []. rewrite app_nil_r. split; [reflexivity|]. intros r [].
    - exists []. rewrite app_nil_r. split; [reflexivity|]. split; [constructor|]. intros r [].
    - intros r Hr. apply Nat.ltb_lt in Hr. now rewrite Hr.
  Qed.
  Lemma ext_mono (D E : nat -> Prop) s s' : (forall r, D r -> E r) -> ext D s s' -> ext E s s'.
  Proof. intros H [H1 H2 H3 H4 H5 H6 H7]. constructor; auto. Qed.
  Lemma NoDup_app_intro {X} (l1 l2 : list X) : NoDup l1 -> NoDup l2 -> (forall x, In x l1 -> ~ In x l2) -> NoDup (l1 ++ l2).
  Proof.
    induction 1 as [|x l1 Hx Hn IH]; intros H2 Hd; [exact H2|]. cbn. constructor.
    - rewrite in_app_iff. intros [C|C]; [contradiction|]. exact (Hd x (or_introl eq_refl) C).
    - apply IH; [assumption|]. intros y Hy. apply Hd. now right.
  Qed.
  Lemma ext_trans D s s1 s2 : ext D s s1 -> ext D s1 s2 -> ext D s s2.
  Proof.
    intros [[l1 [E1 N1]] H2 H3 H4 H5 [m1 [F1 [G1 K1]]] H7] [[l2 [E2 N2]] J2 J3 J4 J5 [m2 [F2 [G2 K2]]] J7]. constructor.
    - exists (l1 ++ l2). rewrite E2, E1, app_assoc. split; [reflexivity|]. intros r Hr. apply in_app_iff in Hr. destruct Hr as [Hr|Hr]; [auto|].
      specialize (N2 r Hr). lia.
    - lia.
    - intros r Hr. rewrite J3, H3; auto. lia.
    - intros r Hr Hl. apply J4; [lia|]. now apply H4.
    - intros r Hr Hl Hd. destruct (H5 r Hr Hl Hd) as [<- <-]. apply J5; auto; lia.
    - exists (m1 ++ m2). rewrite F2, F1, app_assoc. split; [reflexivity|]. split.
      + apply NoDup_app_intro; auto. intros r Hr1 Hr2. destruct (K1 r Hr1) as (_ & L1 & L2). destruct (K2 r Hr2) as (M1 & _). rewrite M1 in L2 by assumption. discriminate.
      + intros r Hr. apply in_app_iff in Hr. destruct Hr as [Hr|Hr].
        * destruct (K1 r Hr) as (A1 & A2 & A3). split; [assumption|]. split; [lia|]. now apply J4.
        * destruct (K2 r Hr) as (A1 & A2 & A3). split; [|auto]. intro L. destruct (loaded s r) eqn:El; [|reflexivity].
          rewrite <- A1 by lia. symmetry. now apply H4.
    - intros r Hr. rewrite J7 by assumption. destruct (Nat.ltb_spec r (next s1)).
      + now apply H7.
      + destruct (Nat.ltb_spec r (next s)); [lia|reflexivity].
  Qed.

  Lemma key_ext D s s' r : ext D s s' -> (r < next s)%nat -> keyOf s' r = keyOf s r.
  Proof. intros E Hr. unfold LoadSpec.keyOf. now rewrite (e_uri _ _ _ E r Hr). Qed.
  Lemma find_stands_ext D s s' t r : inv s -> ext D s s' -> find (stands s t) (resources s) = Some r ->
    find (stands s' t) (resources s') = Some r.
  Proof.
    intros I E F. destruct (e_res _ _ _ E) as (l & -> & _). rewrite find_app.
    rewrite (find_ext_in _ (stands s t)), F; [reflexivity|].
    intros x Hx. unfold LoadSpec.stands. rewrite (key_ext D s s'); [reflexivity|assumption|]. now apply (i_res _ I).
  Qed.
  Lemma answer_ext D s s' p r : inv s -> ext D s s' -> answer s p = Some r -> answer s' p = Some r.
  Proof. intros I E. unfold LoadSpec.answer. destruct (pack (raw p)); [auto|]. eapply find_stands_ext; eauto. Qed.

  (** ** the search of GetResource *)
  Lemma scan_find s t l : (forall r, In r l -> uri s r <> None) ->
    scan W s t l = match find (stands s t) l with Some r => Found r | None => Absent end.
  Proof.
    induction l as [|r l IH]; intro H; [reflexivity|]. cbn. unfold LoadSpec.stands at 1, LoadSpec.keyOf.
    destruct (uri s r) as [q|] eqn:E; [|now destruct (H r (or_introl eq_refl))].
    destruct (Nat.eqb (norm (raw q)) t); [reflexivity|]. apply IH. intros x Hx. apply H. now right.
  Qed.
  Lemma find_stands_some s t r : find (stands s t) (resources s) = Some r -> In r (resources s) /\ keyOf s r = Some t.
  Proof.
    intro F. apply find_some in F. destruct F as [F1 F2]. split; [assumption|]. unfold LoadSpec.stands in F2.
    destruct (keyOf s r) as [k|]; [|discriminate]. apply Nat.eqb_eq in F2. now subst.
  Qed.

  (** ** documents still to be read *)
  Definition ready (s : state) (k : text) : bool :=
    match find (stands s k) (resources s) with Some r => loaded s r | None => false end.
  Definition pending (U : list text) (s : state) : nat := length (filter (fun k => negb (ready s k)) U).
  Lemma filter_length_le {X} (p q : X -> bool) l : (forall x, In x l -> q x = true -> p x = true) -> (length (filter q l) <= length (filter p l))%nat.
  Proof.
    induction l as [|x l IH]; intro H; [reflexivity|]. cbn. specialize (IH (fun y Hy => H y (or_intror Hy))).
    specialize (H x (or_introl eq_refl)). destruct (q x); [rewrite H by reflexivity; cbn; lia|]. destruct (p x); cbn; lia.
  Qed.
  Lemma filter_length_lt {X} (p q : X -> bool) l k : (forall x, In x l -> q x = true -> p x = true) -> In k l -> p k = true -> q k = false ->
    (length (filter q l) < length (filter p l))%nat.
  Proof.
    induction l as [|x l IH]; intros H Hk Hp Hq; [contradiction|]. cbn. destruct Hk as [->|Hk].
    - rewrite Hp, Hq. cbn. apply le_n_S. apply filter_length_le. intros y Hy. apply H. now right.
    - specialize (IH (fun y Hy => H y (or_intror Hy)) Hk Hp Hq). specialize (H x (or_introl eq_refl)).
      destruct (q x); [rewrite H by reflexivity; cbn; lia|]. destruct (p x); cbn; lia.
  Qed.
  Lemma ready_ext D s s' k : inv s -> ext D s s' -> ready s k = true -> ready s' k = true.
  Proof.
    intros I E. unfold ready. destruct (find (stands s k) (resources s)) as [r|] eqn:F; [|discriminate]. intro L.
    rewrite (find_stands_ext D s s' k r I E F). apply (e_loaded _ _ _ E); [|assumption].
    apply find_stands_some in F. now apply (i_res _ I).
  Qed.
  Lemma pending_ext U D s s' : inv s -> ext D s s' -> (pending U s' <= pending U s)%nat.
  Proof.
    intros I E. apply filter_length_le. intros k _ H. destruct (ready s k) eqn:R; [|reflexivity].
    now rewrite (ready_ext D s s' k I E R) in H.
  Qed.
  Lemma pending_less U D s s' k : inv s -> ext D s s' -> In k U -> ready s k = false -> ready s' k = true -> (pending U s' < pending U s)%nat.
  Proof.
    intros I E Hk R R'. apply (filter_length_lt _ _ U k); auto.
    - intros x _ H. destruct (ready s x) eqn:Rx; [|reflexivity]. now rewrite (ready_ext D s s' x I E Rx) in H.
    - now rewrite R.
    - now rewrite R'.
  Qed.

  (** ** one document *)
  Notation outcome := (outcome W).
  Definition nobody : nat -> Prop := fun _ => False.
  (** what a demand achieves *)
  Definition answers (s : state) (p : ptr) (s' : state) (x : option nat) : Prop :=
    exists r, x = Some r /\ ext nobody s s' /\ inv s' /\ (distinct s -> distinct s') /\ answer s' p = Some r
      /\ (answer s p = Some r \/ answer s p = None /\ r = next s /\ uri s' r = Some p)
      /\ (pack (raw p) = None -> outcome s' (norm (raw p)) r).

  Lemma ext_state D s s' : resources s' = resources s -> next s' = next s -> uri s' = uri s -> decoded s' = decoded s -> loading s' = loading s ->
    (forall r, loaded s r = true -> loaded s' r = true) ->
    (forall r, (r < next s)%nat -> loaded s r = true -> ~ D r -> roots s' r = roots s r /\ errors s' r = errors s r) -> ext D s s'.
  Proof.
    intros E1 E2 E3 E4 E5 H1 H2. constructor; auto.
    - exists []. rewrite app_nil_r. split; [assumption|]. intros r [].
    - rewrite E2. lia.
    - intros. now rewrite E3.
    - exists []. rewrite app_nil_r. split; [assumption|]. split; [constructor|]. intros r [].
    - intros r Hr. rewrite E5. rewrite E2 in Hr. apply Nat.ltb_lt in Hr. now rewrite Hr.
  Qed.
  Lemma distinct_state s s' : resources s' = resources s -> uri s' = uri s -> distinct s -> distinct s'.
  Proof. unfold LoadSpec.distinct, LoadSpec.keyOf. intros -> ->. auto. Qed.
  Lemma answer_state s s' p : resources s' = resources s -> uri s' = uri s -> answer s' p = answer s p.
  Proof. unfold LoadSpec.answer, LoadSpec.stands, LoadSpec.keyOf. now intros -> ->. Qed.
  Lemma inv_state s s' : cache s' = cache s -> resources s' = resources s -> next s' = next s -> uri s' = uri s ->
    (forall r, loaded s r = true -> loaded s' r = true) -> (forall r, loading s' r = true -> loaded s' r = true) -> inv s -> inv s'.
  Proof.
    intros E1 E2 E3 E4 L H [I1 I2 I3 I4 I5]. constructor; rewrite ?E1, ?E2, ?E3, ?E4; auto.
    - intros c p r. rewrite (answer_state s s') by assumption. apply I1.
    - intros t r Hr. apply I2 in Hr. split; [apply L|]; apply Hr.
  Qed.

  Lemma addRoot_ext s r f o : inv s -> ext (eq r) s (addRoot s r f o) /\ inv (addRoot s r f o) /\ (distinct s -> distinct (addRoot s r f o)).
  Proof.
    intro I. unfold addRoot. destruct (existsb _ _); [split; [apply ext_refl|auto]|]. split; [|split].
    - apply ext_state; auto; cbn.
      + intros x Hx. unfold upd. now destruct (Nat.eqb x r).
      + intros x _ _ Hne. split; [apply upd_ne; auto|reflexivity].
    - apply (inv_state s); auto; cbn; intros x Hx; unfold upd; destruct (Nat.eqb x r); auto. now apply (i_loading _ I).
    - now apply distinct_state.
  Qed.
  Lemma complain_ext s r l : inv s -> ext (eq r) s (set_errors s r l) /\ inv (set_errors s r l) /\ (distinct s -> distinct (set_errors s r l)).
  Proof.
    intro I. split; [|split].
    - apply ext_state; auto; cbn. intros x _ _ Hne. split; [reflexivity|apply upd_ne; auto].
    - apply (inv_state s); auto. cbn. apply I.
    - now apply distinct_state.
  Qed.

  Section Step.
    Variables (U : list text) (n : nat).
    Hypothesis Hclosed : closed W U.
    Variable demand : state -> ptr -> result (option nat).
    Hypothesis Hdemand : forall s p, inv s -> In (norm (raw p)) U -> (pending U s < n)%nat -> exists s' x, demand s p = Done s' x /\ answers s p s' x.

    Lemma decode_ok r l : (forall p, In (Demand p) l -> In (norm (raw (trim W p))) U) -> forall s, inv s -> (pending U s < n)%nat ->
      exists s', decode W demand s r l = Done s' tt /\ ext (eq r) s s' /\ inv s' /\ (distinct s -> distinct s').
    Proof.
      induction l as [|a l IH]; intros Hl s I Hp; cbn.
      - exists s. split; [reflexivity|]. split; [apply ext_refl|]. auto.
      - assert (Hl' : forall p, In (Demand p) l -> In (norm (raw (trim W p))) U) by (intros p H; apply Hl; now right).
        assert (K : forall s1, ext (eq r) s s1 -> inv s1 -> (distinct s -> distinct s1) ->
          exists s', decode W demand s1 r l = Done s' tt /\ ext (eq r) s s' /\ inv s' /\ (distinct s -> distinct s')).
        { intros s1 E1 I1 D1. destruct (IH Hl' s1 I1) as (s' & R & E' & I' & D').
          - pose proof (pending_ext U _ _ _ I E1). lia.
          - exists s'. split; [assumption|]. split; [eapply ext_trans; eauto|]. auto. }
        destruct a as [f o|p|c]; cbn.
        + destruct (addRoot_ext s r f o I) as (A & B & C). now apply K.
        + destruct (Hdemand s (trim W p) I (Hl p (or_introl eq_refl)) Hp) as (s1 & x & R & rr & -> & E1 & I1 & D1 & _).
          rewrite R. cbn. apply K; auto. eapply ext_mono; [|exact E1]. intros ? [].
        + destruct (complain_ext s r (errors s r ++ [Reported c]) I) as (A & B & C). now apply K.
    Qed.

    (** loading [r], which stands for the document [t] *)
    Lemma load_core s r t : inv s -> (r < next s)%nat -> keyOf s r = Some t ->
      (loaded s r = false -> (pending U (log (set_errors (set_loaded (set_loading s r true) r true) r []) r) < n)%nat) ->
      exists s', load W demand s r = Done s' tt /\ ext nobody s s' /\ inv s' /\ (distinct s -> distinct s') /\ outcome s' t r.
    Proof.
      intros I Hr Hk Hp. unfold load. destruct (loaded s r) eqn:L.
      { exists s. split; [reflexivity|]. split; [apply ext_refl|]. split; [assumption|]. split; [auto|]. now left. }
      unfold LoadSpec.keyOf in Hk. destruct (uri s r) as [q|] eqn:Eu; [|discriminate]. inversion Hk as [Hq]; clear Hk.
      assert (Fail : forall x, exists s', Done (set_errors s r [x]) tt = Done s' tt /\ ext nobody s s' /\ inv s' /\ (distinct s -> distinct s') /\ outcome s' t r).
      { intro x. exists (set_errors s r [x]). split; [reflexivity|]. destruct (complain_ext s r [x] I) as (A & B & C). split; [|split; [assumption|split; [assumption|]]].
        - apply ext_state; auto. cbn. intros y _ Ly _. split; [reflexivity|]. apply upd_ne. intros ->. rewrite L in Ly. discriminate.
        - right. left. cbn. rewrite upd_eq. discriminate. }
      rewrite Hq. destruct (source W t) as [| |d] eqn:Es; [apply Fail| |].
      { exists s. split; [reflexivity|]. split; [apply ext_refl|]. split; [assumption|]. split; [auto|]. right. now right. }
      unfold loadWithReader. rewrite L. destruct (codec W (raw q)) as [c|] eqn:Ec; [|apply Fail]. destruct (c d) as [l|] eqn:Ed; [|apply Fail].
      set (s1 := log (set_errors (set_loaded (set_loading s r true) r true) r []) r).
      assert (I1 : inv s1).
      { apply (inv_state s); auto; cbn; intros x; unfold upd; destruct (Nat.eqb x r); auto. apply (i_loading _ I). }
      destruct (decode_ok r l (fun p Hpp => Hclosed _ _ _ _ _ _ Es Ec Ed Hpp) s1 I1 (Hp eq_refl)) as (s2 & R2 & E2 & I2 & D2).
      unfold bind. rewrite R2. exists (set_loading s2 r false). split; [reflexivity|].
      assert (L2 : loaded s2 r = true) by (apply (e_loaded _ _ _ E2); [exact Hr|cbn; apply upd_eq]).
      split; [|split; [|split]].
      - destruct E2 as [[l2 [F1 F2]] G1 G2 G3 G4 [m2 [M1 [M2 M3]]] G6]. constructor; cbn -[Nat.ltb].
        + exists l2. split; [exact F1|exact F2].
        + exact G1.
        + intros x Hx. now rewrite G2.
        + intros x Hx Lx. apply G3; [assumption|]. cbn. unfold upd. now destruct (Nat.eqb x r).
        + intros x Hx Lx _. assert (x <> r) by (intros ->; rewrite L in Lx; discriminate).
          destruct (G4 x Hx) as [A1 A2]; [cbn; rewrite upd_ne; assumption|auto|]. rewrite A1, A2. cbn. split; [reflexivity|]. now apply upd_ne.
        + exists (r :: m2). split; [rewrite M1; cbn; now rewrite <- app_assoc|]. split.
          * constructor; [|assumption]. intro H. destruct (M3 r H) as (A1 & _). specialize (A1 Hr). cbn in A1. rewrite upd_eq in A1. discriminate.
          * intros x [<-|Hx]; [|].
            -- split; [auto|]. split; [|assumption]. cbn in G1. lia.
            -- destruct (M3 x Hx) as (A1 & A2 & A3). split; [|auto]. intro Hlt. specialize (A1 Hlt). cbn in A1. unfold upd in A1. now destruct (Nat.eqb x r).
        + intros x Hx. unfold upd. destruct (Nat.eqb_spec x r) as [->|Ne].
          * apply Nat.ltb_lt in Hr. rewrite Hr. destruct (loading s r) eqn:B; [|reflexivity]. apply (i_loading _ I) in B. rewrite L in B. discriminate.
          * rewrite G6 by assumption. cbn -[Nat.ltb]. now rewrite upd_ne.
      - apply (inv_state s2); auto. cbn. intros x. unfold upd. destruct (Nat.eqb_spec x r) as [->|Ne]; [discriminate|]. apply (i_loading _ I2).
      - intro D. now apply (distinct_state s2); auto.
      - left. exact L2.
    Qed.

    Lemma load_ok s r t : inv s -> In r (resources s) -> keyOf s r = Some t -> find (stands s t) (resources s) = Some r -> In t U ->
      (pending U s <= n)%nat ->
      exists s', load W demand s r = Done s' tt /\ ext nobody s s' /\ inv s' /\ (distinct s -> distinct s') /\ outcome s' t r.
    Proof.
      intros I Hin Hk Hf Ht Hp. apply load_core; auto; [now apply (i_res _ I)|]. intro L.
      set (s1 := log (set_errors (set_loaded (set_loading s r true) r true) r []) r).
      assert (Rs : ready s t = false) by (unfold ready; now rewrite Hf).
      assert (Rs1 : ready s1 t = true).
      { unfold ready. assert (Ef : find (stands s1 t) (resources s1) = Some r) by exact Hf. rewrite Ef. cbn. apply upd_eq. }
      assert (Hlow : (pending U s1 < pending U s)%nat); [|lia].
      { apply (filter_length_lt _ _ U t); auto.
        - intros k _ Hnk. destruct (ready s k) eqn:Rk; [|reflexivity]. unfold ready in Rk.
          destruct (find (stands s k) (resources s)) as [y|] eqn:Fk; [|discriminate].
          assert (Ef : find (stands s1 k) (resources s1) = Some y) by exact Fk.
          unfold ready in Hnk. rewrite Ef in Hnk. cbn in Hnk. unfold upd in Hnk. destruct (Nat.eqb y r); [discriminate|]. now rewrite Rk in Hnk.
        - now rewrite Rs.
        - now rewrite Rs1. }
    Qed.
    Lemma load_any s r : inv s -> (r < next s)%nat -> (pending U s < n)%nat ->
      exists s', load W demand s r = Done s' tt /\ ext nobody s s' /\ inv s' /\ (distinct s -> distinct s') /\ forall t, keyOf s r = Some t -> outcome s' t r.
    Proof.
      intros I Hr Hp. destruct (keyOf s r) as [t|] eqn:Hk.
      - destruct (load_core s r t I Hr Hk) as (s' & A & B & C & D & O).
        + intros _. eapply Nat.le_lt_trans; [|exact Hp]. apply filter_length_le. intros k _ H. destruct (ready s k) eqn:Rk; [|reflexivity]. exfalso.
          unfold ready in Rk, H. destruct (find (stands s k) (resources s)) as [y|] eqn:Fk; [|discriminate].
          match type of H with context [find (stands ?s1 k)] => assert (Ef : find (stands s1 k) (resources s1) = Some y) by exact Fk end.
          rewrite Ef in H. cbn in H. unfold upd in H. destruct (Nat.eqb y r); [discriminate|]. now rewrite Rk in H.
        + exists s'. split; [assumption|]. split; [assumption|]. split; [assumption|]. split; [assumption|]. intros t' Ht. injection Ht as <-. assumption.
      - exists s. unfold load. unfold LoadSpec.keyOf in Hk. destruct (uri s r); [discriminate|]. split; [now destruct (loaded s r)|].
        split; [apply ext_refl|]. split; [assumption|]. split; [auto|]. discriminate.
    Qed.

    Lemma create_ok s p s1 r : createResource s p = (s1, r) -> inv s -> find (stands s (norm (raw p))) (resources s) = None ->
      r = next s /\ ext nobody s s1 /\ inv s1 /\ (distinct s -> distinct s1) /\ find (stands s1 (norm (raw p))) (resources s1) = Some r /\ uri s1 r = Some p.
    Proof using. clear.
      intros C I F. unfold createResource, newResource in C. inversion C; subst; clear C. split; [reflexivity|].
      assert (Key : forall x, In x (resources s) -> x <> next s) by (intros x Hx ->; apply (i_res _ I) in Hx; lia).
      match goal with |- ext _ _ ?z /\ _ => assert (X : ext nobody s z) end.
      { constructor; cbn -[Nat.ltb].
        + exists [next s]. split; [reflexivity|]. intros x [<-|[]]. lia.
        + lia.
        + intros x Hx. rewrite !upd_ne by lia. reflexivity.
        + intros x Hx. rewrite upd_ne by lia. auto.
        + intros x Hx _ _. rewrite !upd_ne by lia. auto.
        + exists []. rewrite app_nil_r. split; [reflexivity|]. split; [constructor|]. intros x [].
        + intros x Hx. unfold upd. destruct (Nat.eqb_spec x (next s)) as [->|]; [rewrite Nat.ltb_irrefl; reflexivity|].
          destruct (Nat.ltb_spec x (next s)); [reflexivity|lia]. }
      split; [exact X|]. split; [|split; [|split]].
      - constructor; cbn -[Nat.ltb].
        + intros c q r Hc Hq. apply (answer_ext nobody s); [assumption|exact X|]. now apply (i_cache _ I c).
        + intros t r Ht. apply (i_pack _ I) in Ht. split; [apply (e_loaded _ _ _ X); apply Ht|lia].
        + intros x Hx. apply in_app_iff in Hx. destruct Hx as [Hx|[<-|[]]].
          * pose proof (Key x Hx). rewrite !upd_ne by assumption. apply (i_res _ I) in Hx. split; [lia|tauto].
          * rewrite upd_eq. split; [lia|discriminate].
        + apply NoDup_app_intro; [apply (i_nodup _ I)|constructor; [intros []|constructor]|]. intros x Hx [<-|[]]. now apply (Key (next s)).
        + intros x. unfold upd. destruct (Nat.eqb x (next s)); [discriminate|apply (i_loading _ I)].
      - intros D x y k Hx Hy Kx Ky. cbn in Hx, Hy. apply in_app_iff in Hx. apply in_app_iff in Hy. unfold LoadSpec.keyOf in Kx, Ky. cbn in Kx, Ky.
        destruct Hx as [Hx|[<-|[]]], Hy as [Hy|[<-|[]]]; [| | |reflexivity].
        + rewrite !upd_ne in Kx, Ky by (now apply Key). eapply D; eauto.
        + exfalso. rewrite !upd_ne in Kx by (now apply Key). rewrite upd_eq in Ky. inversion Ky; subst. pose proof (find_none _ _ F x Hx) as N.
          unfold LoadSpec.stands, LoadSpec.keyOf in N. rewrite Kx, Nat.eqb_refl in N. discriminate.
        + exfalso. rewrite !upd_ne in Ky by (now apply Key). rewrite upd_eq in Kx. inversion Kx; subst. pose proof (find_none _ _ F y Hy) as N.
          unfold LoadSpec.stands, LoadSpec.keyOf in N. rewrite Ky, Nat.eqb_refl in N. discriminate.
      - cbn. rewrite find_app. rewrite (find_ext_in _ (stands s (norm (raw p)))), F.
        + cbn. unfold LoadSpec.stands, LoadSpec.keyOf. cbn. rewrite upd_eq, Nat.eqb_refl. reflexivity.
        + intros x Hx. unfold LoadSpec.stands, LoadSpec.keyOf. cbn. rewrite !upd_ne by (now apply Key). reflexivity.
      - cbn. apply upd_eq.
    Qed.

    Lemma remember_ok s p r : inv s -> answer s p = Some r -> ext nobody s (remember s p r) /\ inv (remember s p r) /\ (distinct s -> distinct (remember s p r)).
    Proof using. clear.
      intros I A. unfold remember. destruct (cache s) as [c|] eqn:C; [|split; [apply ext_refl|auto]]. split; [|split].
      - now apply ext_state.
      - destruct I as [I1 I2 I3 I4 I5]. constructor; auto. cbn. intros c' q x Hc. injection Hc as <-.
        change (answer (set_cache s (Some (fun q => if Nat.eqb q p then Some r else c q))) q) with (answer s q).
        destruct (Nat.eqb_spec q p) as [->|]; [congruence|]. now apply (I1 c).
      - now apply distinct_state.
    Qed.
    Lemma answers_remember s p s' r : answers s p s' (Some r) -> answers s p (remember s' p r) (Some r).
    Proof using. clear.
      intros (x & Hx & E & I & D & A & B & O). injection Hx as <-. destruct (remember_ok s' p r I A) as (E' & I' & D').
      exists r. split; [reflexivity|]. split; [eapply ext_trans; eauto|]. split; [assumption|]. split; [auto|].
      split; [exact (answer_ext _ _ _ _ _ I E' A)|]. unfold LoadSpec.outcome in *. unfold remember. now destruct (cache s').
    Qed.

    Lemma found_ok s p r : inv s -> In (norm (raw p)) U -> (pending U s <= n)%nat -> answer s p = Some r ->
      (loaded s r = true \/ pack (raw p) = None) ->
      exists s', (if true && negb (loaded s r) then load W demand s r else Done s tt) = Done s' tt /\ answers s p s' (Some r).
    Proof.
      intros I Hu Hp A Hor. destruct (loaded s r) eqn:L; cbn.
      { exists s. split; [reflexivity|]. exists r. split; [reflexivity|]. split; [apply ext_refl|]. split; [assumption|]. split; [auto|]. split; [assumption|].
        split; [now left|]. intros _. now left. }
      destruct Hor as [?|Epk]; [discriminate|]. assert (F := A). unfold LoadSpec.answer in F. rewrite Epk in F.
      pose proof (find_stands_some _ _ _ F) as [Hin Hk]. destruct (load_ok s r _ I Hin Hk F Hu Hp) as (s' & R & E & I' & D & O).
      exists s'. split; [assumption|]. exists r. split; [reflexivity|]. split; [assumption|]. split; [assumption|]. split; [assumption|].
      split; [exact (answer_ext _ _ _ _ _ I E A)|]. split; [now left|]. auto.
    Qed.
    Lemma get_ok s p : inv s -> In (norm (raw p)) U -> (pending U s <= n)%nat ->
      exists s' x, getResourceWith W demand s p true = Done s' x /\ answers s p s' x.
    Proof.
      intros I Hu Hp. unfold getResourceWith.
      destruct (match cache s with Some c => c p | None => None end) as [r|] eqn:Ec.
      { destruct (cache s) as [c|] eqn:C; [|discriminate]. pose proof (i_cache _ I c p r C Ec) as A.
        destruct (found_ok s p r I Hu Hp A) as (s' & R & An).
        { assert (A' := A). unfold LoadSpec.answer in A'. destruct (pack (raw p)) as [x|] eqn:Epk; [|now right]. injection A' as ->. left. eapply (i_pack _ I); eauto. }
        unfold bind. rewrite R. eauto. }
      destruct (pack (raw p)) as [r|] eqn:Epk.
      { exists (remember s p r), (Some r). split; [reflexivity|]. apply answers_remember. exists r.
        split; [reflexivity|]. split; [apply ext_refl|]. split; [assumption|]. split; [auto|]. unfold LoadSpec.answer. rewrite Epk.
        split; [reflexivity|]. split; [now left|]. discriminate. }
      rewrite scan_find by (intros r Hr; now apply (i_res _ I)).
      destruct (find (stands s (norm (raw p))) (resources s)) as [r|] eqn:F.
      - assert (A : answer s p = Some r) by (unfold LoadSpec.answer; now rewrite Epk).
        destruct (found_ok s p r I Hu Hp A (or_intror Epk)) as (s' & R & An). unfold bind. rewrite R.
        exists (remember s' p r), (Some r). split; [reflexivity|]. now apply answers_remember.
      - destruct (createResource s p) as [s1 r] eqn:C. destruct (create_ok s p s1 r C I F) as (-> & E1 & I1 & D1 & F1 & U1).
        pose proof (find_stands_some _ _ _ F1) as [Hin Hk].
        destruct (load_ok s1 (next s) (norm (raw p)) I1 Hin Hk F1 Hu) as (s' & R & E & I' & D & O).
        { pose proof (pending_ext U _ _ _ I E1). lia. }
        unfold bind. rewrite R. exists (remember s' p (next s)), (Some (next s)). split; [reflexivity|]. apply answers_remember. exists (next s).
        split; [reflexivity|]. split; [eapply ext_trans; eauto|]. split; [assumption|]. split; [auto|].
        assert (A1 : answer s1 p = Some (next s)) by (unfold LoadSpec.answer; now rewrite Epk).
        split; [exact (answer_ext _ s1 s' p _ I1 E A1)|]. split; [|auto]. right. split; [unfold LoadSpec.answer; now rewrite Epk|]. split; [reflexivity|].
        rewrite (e_uri _ _ _ E); [assumption|]. now apply (i_res _ I1).
    Qed.
  End Step.

  Lemma getResource_ok U : closed W U -> forall n s p, inv s -> In (norm (raw p)) U -> (pending U s < n)%nat ->
    exists s' x, getResource W n s p true = Done s' x /\ answers s p s' x.
  Proof.
    intro HU. induction n as [|n IH]; intros s p I Hu Hp; [lia|]. cbn [getResource]. apply (get_ok U n HU); auto. lia.
  Qed.
  Lemma pending_length U s : (pending U s <= length U)%nat.
  Proof. unfold pending. induction U as [|k U IH]; [reflexivity|]. cbn. destruct (negb (ready s k)); cbn; lia. Qed.
  Lemma closed_cons U k : closed W U -> closed W (k :: U).
  Proof. intros H t t' d c l p H1 H2 H3 H4. right. eapply H; eauto. Qed.

  Lemma getResource_false n s p : inv s -> exists s', getResource W (Datatypes.S n) s p false = Done s' (answer s p)
    /\ ext nobody s s' /\ inv s' /\ (distinct s -> distinct s')
    /\ resources s' = resources s /\ uri s' = uri s /\ loaded s' = loaded s /\ roots s' = roots s /\ errors s' = errors s /\ decoded s' = decoded s /\ next s' = next s.
  Proof.
    intro I. cbn [getResource]. unfold getResourceWith.
    assert (K : forall r, answer s p = Some r -> exists s', Done (remember s p r) (Some r) = Done s' (answer s p)
      /\ ext nobody s s' /\ inv s' /\ (distinct s -> distinct s')
      /\ resources s' = resources s /\ uri s' = uri s /\ loaded s' = loaded s /\ roots s' = roots s /\ errors s' = errors s /\ decoded s' = decoded s /\ next s' = next s).
    { intros r A. exists (remember s p r). rewrite A. split; [reflexivity|]. destruct (remember_ok s p r I A) as (H1 & H2 & H3).
      split; [assumption|]. split; [assumption|]. split; [assumption|]. unfold remember. destruct (cache s); repeat split; reflexivity. }
    assert (K' : forall x, x = answer s p -> exists s', Done s x = Done s' (answer s p)
      /\ ext nobody s s' /\ inv s' /\ (distinct s -> distinct s')
      /\ resources s' = resources s /\ uri s' = uri s /\ loaded s' = loaded s /\ roots s' = roots s /\ errors s' = errors s /\ decoded s' = decoded s /\ next s' = next s).
    { intros x ->. exists s. split; [reflexivity|]. split; [apply ext_refl|]. split; [assumption|]. split; [auto|]. repeat split; reflexivity. }
    destruct (match cache s with Some c => c p | None => None end) as [r|] eqn:Ec.
    { destruct (cache s) as [c|] eqn:C; [|discriminate]. pose proof (i_cache _ I c p r C Ec) as A. cbn. now apply K'. }
    destruct (pack (raw p)) as [r|] eqn:Epk; [apply K; unfold LoadSpec.answer; now rewrite Epk|].
    rewrite scan_find by (intros r Hr; now apply (i_res _ I)).
    destruct (find _ _) as [r|] eqn:F; cbn; [apply K|apply K']; unfold LoadSpec.answer; now rewrite Epk.
  Qed.
  Lemma getResource_true U n s p : closed W U -> inv s -> (length U + 1 < n)%nat -> exists s' x, getResource W n s p true = Done s' x /\ answers s p s' x.
  Proof.
    intros HU I Hn. apply (getResource_ok (norm (raw p) :: U)); [now apply closed_cons|assumption|now left|].
    pose proof (pending_length (norm (raw p) :: U) s). cbn [length] in H. lia.
  Qed.

  (** ** more fuel changes nothing *)
  Lemma bind_done {X Y} (a : result X) (f : state -> X -> result Y) s y : bind a f = Done s y -> exists s1 x, a = Done s1 x /\ f s1 x = Done s y.
  Proof. destruct a; cbn; [eauto|discriminate|discriminate]. Qed.
  Lemma decode_mono d1 d2 : (forall s p s' x, d1 s p = Done s' x -> d2 s p = Done s' x) -> forall l s r s' x, decode W d1 s r l = Done s' x -> decode W d2 s r l = Done s' x.
  Proof.
    intro H. induction l as [|[f o|p|c] l IH]; intros s r s' x; cbn; auto. intro E. apply bind_done in E. destruct E as (s1 & y & E1 & E2).
    rewrite (H _ _ _ _ E1). cbn. auto.
  Qed.
  Lemma load_mono d1 d2 : (forall s p s' x, d1 s p = Done s' x -> d2 s p = Done s' x) -> forall s r s' x, load W d1 s r = Done s' x -> load W d2 s r = Done s' x.
  Proof.
    intros H s r s' x. unfold load. destruct (loaded s r); [auto|]. destruct (uri s r) as [p|]; [|auto]. destruct (source W _); auto.
    unfold loadWithReader. destruct (loaded s r); [auto|]. destruct (codec W _) as [c|]; [|auto]. destruct (c d) as [l|]; [|auto].
    intro E. apply bind_done in E. destruct E as (s1 & y & E1 & E2). rewrite (decode_mono _ _ H _ _ _ _ _ E1). exact E2.
  Qed.
  Lemma get_mono d1 d2 : (forall s p s' x, d1 s p = Done s' x -> d2 s p = Done s' x) -> forall s p b s' x, getResourceWith W d1 s p b = Done s' x -> getResourceWith W d2 s p b = Done s' x.
  Proof.
    intros H s p b s' x. unfold getResourceWith.
    assert (K : forall r s1 y, (if b && negb (loaded s r) then load W d1 s r else Done s tt) = Done s1 y -> (if b && negb (loaded s r) then load W d2 s r else Done s tt) = Done s1 y).
    { intros r s1 y. destruct (b && negb (loaded s r)); [now apply load_mono|auto]. }
    destruct (match cache s with Some c => c p | None => None end) as [r|].
    { intro E. apply bind_done in E. destruct E as (s1 & y & E1 & E2). rewrite (K _ _ _ E1). exact E2. }
    destruct (pack (raw p)) as [r|]; [auto|]. destruct (scan W s _ _) as [r| |]; [| |auto].
    - intro E. apply bind_done in E. destruct E as (s1 & y & E1 & E2). rewrite (K _ _ _ E1). exact E2.
    - destruct b; [|auto]. destruct (createResource s p) as [s0 r]. intro E. apply bind_done in E. destruct E as (s1 & y & E1 & E2). rewrite (load_mono _ _ H _ _ _ _ E1). exact E2.
  Qed.
  Lemma getResource_mono n m : (n <= m)%nat -> forall s p b s' x, getResource W n s p b = Done s' x -> getResource W m s p b = Done s' x.
  Proof.
    revert m. induction n as [|n IH]; intros m Hm s p b s' x; [discriminate|]. destruct m as [|m]; [lia|]. cbn [getResource].
    apply get_mono. intros. apply IH; [lia|assumption].
  Qed.
  Lemma perform_mono n m s c s' x : (n <= m)%nat -> perform W n s c = Done s' x -> perform W m s c = Done s' x.
  Proof.
    intros Hm. destruct c; cbn; auto.
    - now apply getResource_mono.
    - unfold getEObject. intro E. apply bind_done in E. destruct E as (s1 & y & E1 & E2). rewrite (getResource_mono _ _ Hm _ _ _ _ _ E1). exact E2.
    - intro E. apply bind_done in E. destruct E as (s1 & y & E1 & E2). rewrite (load_mono (demandFrom W n) (demandFrom W m) (fun s p => getResource_mono n m Hm s p true) _ _ _ _ E1). exact E2.
  Qed.
End Load.
