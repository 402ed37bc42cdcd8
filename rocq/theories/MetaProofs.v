(** Proofs about MetaModel. *)
From Verif Require Import Base Chars FloatModel LiteralModel MetaModel MetaSpec.

Lemma upd_eq {X} (f : nat -> X) k x : upd f k x k = x.
Proof. unfold upd. now rewrite Nat.eqb_refl. Qed.
Lemma upd_ne {X} (f : nat -> X) k x m : m <> k -> upd f k x m = f m.
Proof. unfold upd. intros H. destruct (Nat.eqb_spec m k); congruence. Qed.

(** ** Go maps *)
Lemma mget_mput m n c k : mget (mput m n c) k = if str_eqb n k then Some c else mget m k.
Proof.
  induction m as [ | [a v] m IH]; cbn; [reflexivity | ].
  destruct (str_eqb a n) eqn:E; cbn.
  - apply str_eqb_eq in E. subst. destruct (str_eqb n k); reflexivity.
  - destruct (str_eqb a k) eqn:E2; [ | apply IH].
    apply str_eqb_eq in E2. subst. apply str_eqb_neq in E.
    assert (str_eqb n k = false) as -> by (apply str_eqb_neq; congruence). reflexivity.
Qed.
Lemma mput_keys m n c : NoDup (map fst m) -> NoDup (map fst (mput m n c)).
Proof.
  assert (K : forall m, forall k, In k (map fst (mput m n c)) -> In k (map fst m) \/ k = n).
  { clear m. intros m. induction m as [ | [a v] m IH]; cbn; intros k; [intuition | ].
    destruct (str_eqb a n) eqn:E; cbn; [intuition | ]. intros [H | H]; [auto | ]. destruct (IH _ H); auto. }
  induction m as [ | [a v] m IH]; cbn; intros H.
  - constructor; auto.
  - inversion H; subst. destruct (str_eqb a n) eqn:E; cbn; constructor; auto.
    intros F. destruct (K _ _ F); [auto | ]. subst. apply str_eqb_neq in E. congruence.
Qed.
Lemma mput_in m n c k d : In (k, d) (mput m n c) -> In (k, d) m \/ (k = n /\ d = c).
Proof.
  induction m as [ | [a v] m IH]; cbn.
  - intros [H | []]. injection H as <- <-. auto.
  - destruct (str_eqb a n) eqn:E; cbn.
    + apply str_eqb_eq in E. intros [H | H]; [injection H as <- <-; auto | auto].
    + intros [H | H]; [auto | ]. destruct (IH H); auto.
Qed.
Lemma mget_in m k d : mget m k = Some d -> In (k, d) m.
Proof.
  induction m as [ | [a v] m IH]; cbn; [discriminate | ]. destruct (str_eqb a k) eqn:E.
  - apply str_eqb_eq in E. subst. intros H. injection H as <-. auto.
  - auto.
Qed.
Lemma mget_none m k : mget m k = None -> forall d, ~ In (k, d) m.
Proof.
  induction m as [ | [a v] m IH]; cbn; [auto | ]. destruct (str_eqb a k) eqn:E; [discriminate | ].
  apply str_eqb_neq in E. intros H d [F | F]; [congruence | ]. exact (IH H d F).
Qed.

(** ** the classifiers of a package by their names *)
Lemma by_name_last w l n : last_named (fun c => cname (classifiers w c)) l n (mget (by_name w l) n).
Proof.
  unfold by_name.
  assert (G : forall l m, match mget (fold_left (fun m c => mput m (cname (classifiers w c)) c) l m) n with
    | Some c => (exists l1 l2, l = l1 ++ c :: l2 /\ cname (classifiers w c) = n /\ forall d, In d l2 -> cname (classifiers w d) <> n)
                \/ (mget m n = Some c /\ forall d, In d l -> cname (classifiers w d) <> n)
    | None => mget m n = None /\ forall d, In d l -> cname (classifiers w d) <> n end).
  { clear l. induction l as [ | x l IH]; cbn; intros m.
    - destruct (mget m n); [right; split; auto | auto].
    - specialize (IH (mput m (cname (classifiers w x)) x)). rewrite mget_mput in IH.
      destruct (mget (fold_left _ _ _) n).
      + destruct IH as [(l1 & l2 & -> & A & B) | [A B]].
        * left. exists (x :: l1), l2. auto.
        * destruct (str_eqb (cname (classifiers w x)) n) eqn:E.
          -- injection A as <-. apply str_eqb_eq in E. left. exists [], l. auto.
          -- apply str_eqb_neq in E. right. split; [auto | ]. intros d [<- | F]; auto.
      + destruct IH as [A B]. destruct (str_eqb (cname (classifiers w x)) n) eqn:E; [discriminate | ].
        apply str_eqb_neq in E. split; [auto | ]. intros d [<- | F]; auto. }
  specialize (G l []). unfold last_named. cbn in G. destruct (mget _ n).
  - destruct G as [G | [G _]]; [exact G | discriminate].
  - apply G.
Qed.
Lemma fold_ext {A B} (f g : A -> B -> A) l m : (forall m x, f m x = g m x) -> fold_left f l m = fold_left g l m.
Proof. intros H. revert m. induction l; cbn; intros m; [reflexivity | ]. rewrite H. apply IHl. Qed.
Lemma by_name_ext w w' l : (forall c, cname (classifiers w' c) = cname (classifiers w c)) -> by_name w' l = by_name w l.
Proof. intros H. unfold by_name. apply fold_ext. intros. now rewrite H. Qed.

Section Meta.
  Context (create : nat -> datatype -> str -> option gval) (convert : nat -> datatype -> gval -> option str).
  Notation step := (step create convert).
  Notation run := (run create convert).

  (** *** what getName and getType leave alone *)
  Lemma getName_frame e w w' n : getName e w = Some (w', n) ->
    classifiers w' = classifiers w /\ packages w' = packages w /\ features w' = features w
    /\ metadata w' e = Some (Named n) /\ (forall e', e' <> e -> metadata w' e' = metadata w e').
  Proof using. clear create convert.
    unfold getName. destruct (match metadata w e with None => _ | Some (Named n0) => _ | Some (Types _) => _ end) as [s | ] eqn:E; [ | discriminate].
    intros H. injection H as <- <-. cbn. repeat split.
    - destruct e; cbn; now rewrite Nat.eqb_refl.
    - intros e' NE. destruct (elem_eqb e' e) eqn:F; [ | reflexivity]. exfalso. apply NE.
      destruct e, e'; cbn in F; try discriminate; apply Nat.eqb_eq in F; congruence.
  Qed.
  Lemma typesLoop_frame l name m w w' m' r : typesLoop l name m w = Some (w', m', r) ->
    classifiers w' = classifiers w /\ packages w' = packages w /\ features w' = features w
    /\ (forall p, metadata w' (Pk p) = metadata w (Pk p)).
  Proof using. clear create convert.
    revert m w. induction l as [ | c l IH]; intros m w; cbn [typesLoop].
    - intros H. injection H as <- <- <-. auto.
    - destruct (getName (Cl c) w) as [[w1 n] | ] eqn:E; [ | discriminate].
      destruct (getName_frame _ _ _ _ E) as (A & B & C & _ & D).
      destruct (str_eqb n name).
      + intros H. injection H as <- <- <-. repeat split; auto. intros p. apply D. discriminate.
      + intros H. destruct (IH _ _ H) as (A' & B' & C' & D'). repeat split; try congruence.
        intros p. rewrite D'. apply D. discriminate.
  Qed.
  Lemma getType_frame p n w w' r : getType p n w = Some (w', r) ->
    classifiers w' = classifiers w /\ packages w' = packages w /\ features w' = features w.
  Proof using. clear create convert.
    unfold getType. destruct (match metadata w (Pk p) with None => _ | Some (Named n0) => _ | Some (Types t) => _ end) as [t | ]; [ | discriminate].
    destruct (match t with Some m => mget m n | None => None end).
    - intros H. injection H as <- <-. auto.
    - destruct (match t with Some m => _ | None => _ end).
      + intros H. injection H as <- <-. auto.
      + destruct (typesLoop _ _ _ _) as [[[w1 m] r1] | ] eqn:E; [ | discriminate].
        apply typesLoop_frame in E. intros H. injection H as <- <-. cbn. tauto.
  Qed.
  Lemma getFeatureDefault_frame f w w' v : getFeatureDefault create f w = Some (w', v) ->
    packages w' = packages w /\ metadata w' = metadata w
    /\ (forall c, with_value VNil false (classifiers w' c) = with_value VNil false (classifiers w c))
    /\ (forall g, ftype (features w' g) = ftype (features w g) /\ fliteral (features w' g) = fliteral (features w g)
                  /\ fupper (features w' g) = fupper (features w g) /\ freftype (features w' g) = freftype (features w g)).
  Proof.
    unfold getFeatureDefault, typeDefault. intros H.
    repeat match type of H with context [match ?x with _ => _ end] => destruct x eqn:?; try discriminate end;
    injection H as <- <-; cbn; repeat split; auto;
    intros; unfold upd; match goal with |- context [Nat.eqb ?a ?b] => destruct (Nat.eqb_spec a b); subst; auto end.
  Qed.

  Ltac frames :=
    repeat match goal with
    | H : getName _ _ = Some (_, _) |- _ => apply getName_frame in H; destruct H as (? & ? & ? & ? & ?)
    | H : getType _ _ _ = Some (_, _) |- _ => apply getType_frame in H; destruct H as (? & ? & ?)
    end.

  Lemma typeDefault_packages c w : packages (fst (typeDefault c w)) = packages w.
  Proof using. clear create convert. unfold typeDefault. repeat match goal with |- context [match ?x with _ => _ end] => destruct x end; reflexivity. Qed.
  Lemma typeDefault_classifier c w d : with_value VNil false (classifiers (fst (typeDefault c w)) d) = with_value VNil false (classifiers w d).
  Proof using. clear create convert.
    unfold typeDefault. repeat match goal with |- context [match ?x with _ => _ end] => destruct x end; try reflexivity;
    cbn; unfold upd; destruct (Nat.eqb_spec d c); subst; reflexivity.
  Qed.
  Lemma typeDefault_metadata c w : metadata (fst (typeDefault c w)) = metadata w.
  Proof using. clear create convert. unfold typeDefault. repeat match goal with |- context [match ?x with _ => _ end] => destruct x end; reflexivity. Qed.
  Lemma typeDefault_features c w : features (fst (typeDefault c w)) = features w.
  Proof using. clear create convert. unfold typeDefault. repeat match goal with |- context [match ?x with _ => _ end] => destruct x end; reflexivity. Qed.

  (** *** one package *)
  Lemma changed_list l x : pclassifiers (changed l x) = l.
  Proof using. clear. unfold changed. cbn. destruct (pdeliver x); reflexivity. Qed.
  Lemma on_list_classifiers p g w q : pclassifiers (packages (on_list p g w) q) =
    if Nat.eqb q p then g (pclassifiers (packages w p)) else pclassifiers (packages w q).
  Proof using. clear. cbn. unfold upd. destruct (Nat.eqb q p); [apply changed_list | reflexivity]. Qed.
  Lemma remove_classifiers q c w p : pclassifiers (packages (removeClassifier q c w) p) =
    if Nat.eqb p q && in_list (pclassifiers (packages w q)) c then out_of c (pclassifiers (packages w q)) else pclassifiers (packages w p).
  Proof using. clear create convert.
    clear. unfold removeClassifier. destruct (in_list _ c); [ | now rewrite andb_false_r].
    rewrite andb_true_r. apply on_list_classifiers.
  Qed.

  (** *** names of packages and classifiers that a call does not change *)
  Definition same_attributes (w w' : world) : Prop :=
    forall c, cname (classifiers w' c) = cname (classifiers w c) /\ cext (classifiers w' c) = cext (classifiers w c)
              /\ cdata (classifiers w' c) = cdata (classifiers w c) /\ cserial (classifiers w' c) = cserial (classifiers w c).
  Lemma same_refl w : same_attributes w w. Proof. intros c. auto. Qed.
  Lemma same_set w c x : cname x = cname (classifiers w c) -> cext x = cext (classifiers w c) ->
    cdata x = cdata (classifiers w c) -> cserial x = cserial (classifiers w c) -> same_attributes w (set_classifier c x w).
  Proof using. clear. intros ? ? ? ? d. cbn. unfold upd. destruct (Nat.eqb_spec d c); subst; auto. Qed.
  Lemma same_remove p c w : same_attributes w (removeClassifier p c w).
  Proof using. clear create convert.
    clear. unfold removeClassifier. destruct (in_list _ c); [ | intros d; auto]. intros d. cbn. unfold upd.
    destruct (Nat.eqb_spec d c); subst; auto.
  Qed.
  Lemma same_add p c w : same_attributes w (addClassifier p c w).
  Proof using. clear create convert.
    unfold addClassifier. destruct (in_list _ c); [intros d; auto | ]. destruct (cpackage (classifiers w c)) as [q | ].
    - intros d. pose proof (same_remove q c w d). pose proof (same_remove q c w c). cbn. unfold upd.
      destruct (Nat.eqb_spec d c); subst; cbn; auto.
    - intros d. cbn. unfold upd. destruct (Nat.eqb_spec d c); subst; cbn; auto.
  Qed.

  (** *** the cache of the classifiers of a package *)
  Definition cache_ok (p : nat) (w : world) : Prop :=
    pdeliver (packages w p) = true
    /\ (pcache (packages w p) = None \/ pcache (packages w p) = Some (by_name w (pclassifiers (packages w p)))).
  Lemma cache_ok_ext p w w' : packages w' p = packages w p -> (forall c, cname (classifiers w' c) = cname (classifiers w c)) ->
    cache_ok p w -> cache_ok p w'.
  Proof using. clear. unfold cache_ok. intros -> N. rewrite (by_name_ext w w' _ N). auto. Qed.
  Lemma changed_ok p g w : pdeliver (packages w p) = true -> cache_ok p (on_list p g w).
  Proof using. clear. intros D. unfold cache_ok. cbn. rewrite upd_eq. unfold changed. cbn. rewrite D. cbn. auto. Qed.
  Lemma on_list_other p q g w : p <> q -> packages (on_list q g w) p = packages w p.
  Proof using. clear. intros H. cbn. apply upd_ne. auto. Qed.
  Lemma remove_ok p q c w : cache_ok p w -> cache_ok p (removeClassifier q c w).
  Proof using. clear create convert.
    clear. intros H. unfold removeClassifier. destruct (in_list _ c); [ | exact H].
    eapply cache_ok_ext with (w := on_list q (out_of c) w); [reflexivity | | ].
    - intros d. cbn. unfold upd. destruct (Nat.eqb_spec d c); subst; auto.
    - destruct (Nat.eq_dec p q) as [<- | NE]; [apply changed_ok, H | ].
      eapply cache_ok_ext; [ | | exact H]; [now apply on_list_other | reflexivity].
  Qed.
  Lemma add_ok p q c w : cache_ok p w -> cache_ok p (addClassifier q c w).
  Proof using. clear create convert.
    intros H. unfold addClassifier. destruct (in_list _ c); [exact H | ].
    set (w1 := match cpackage (classifiers w c) with Some q => removeClassifier q c w | None => w end).
    assert (H1 : cache_ok p w1) by (subst w1; destruct (cpackage (classifiers w c)); [apply remove_ok | ]; exact H).
    clearbody w1. cbn zeta.
    eapply cache_ok_ext with (w := on_list q (fun l => l ++ [c]) w1); [reflexivity | | ].
    - intros d. cbn. unfold upd. destruct (Nat.eqb_spec d c); subst; auto.
    - destruct (Nat.eq_dec p q) as [<- | NE]; [apply changed_ok, H1 | ].
      eapply cache_ok_ext; [ | | exact H1]; [now apply on_list_other | reflexivity].
  Qed.
  Lemma with_value_eq x y : with_value VNil false x = with_value VNil false y ->
    cname x = cname y /\ cext x = cext y /\ cdata x = cdata y /\ cserial x = cserial y /\ cpackage x = cpackage y /\ cnumber x = cnumber y.
  Proof using. clear. destruct x, y. cbn. unfold with_value. cbn. intros H. injection H as -> -> -> -> -> ->. auto 10. Qed.
  Lemma cache_step p o w w' : keeps_names o -> step o w = Some w' -> cache_ok p w -> cache_ok p w'.
  Proof.
    intros K ST H. destruct o; cbn in ST.
    1: injection ST as <-; now apply add_ok.
    1: injection ST as <-; now apply remove_ok.
    1: destruct K.
    - injection ST as <-. apply (cache_ok_ext p w); [reflexivity | | exact H]. intros d. cbn. unfold upd. destruct (Nat.eqb_spec d c); subst; auto.
    - destruct b; [ | destruct K]. injection ST as <-. unfold cache_ok in *. cbn. unfold upd.
      destruct (Nat.eqb_spec p p0); subst; cbn; [split; [reflexivity | ] | ]; apply H.
    - injection ST as <-. unfold cache_ok in *. cbn. unfold upd.
      destruct (Nat.eqb_spec p p0); subst; cbn; apply H.
    - injection ST as <-. apply (cache_ok_ext p w); [reflexivity | | exact H]. intros d. cbn. unfold upd. destruct (Nat.eqb_spec d c); subst; auto.
      unfold instance_name. destruct (cdata _); reflexivity.
    - injection ST as <-. apply (cache_ok_ext p w); [reflexivity | | exact H]. intros d. cbn. unfold upd. destruct (Nat.eqb_spec d c); subst; auto.
    - injection ST as <-. apply (cache_ok_ext p w); [reflexivity | | exact H]. intros d. cbn. unfold upd. destruct (Nat.eqb_spec d c); subst; auto.
    - injection ST as <-. exact H.
    - injection ST as <-. exact H.
    - unfold setFeatureDefault in ST.
      repeat match type of ST with context [match ?x with _ => _ end] => destruct x; try discriminate end.
      injection ST as <-. exact H.
    - injection ST as <-. exact H.
    - injection ST as <-. unfold getEClassifier. destruct (pcache (packages w p0)) eqn:E; [exact H | ].
      cbn. unfold cache_ok in *. cbn. unfold upd. destruct (Nat.eqb_spec p p0); subst; cbn; [ | exact H].
      split; [apply H | ]. right. reflexivity.
    - destruct (getType p0 n w) as [[w1 r] | ] eqn:E; [ | discriminate]. injection ST as <-. frames.
      eapply cache_ok_ext; [ | | exact H]; congruence.
    - destruct (getName e w) as [[w1 r] | ] eqn:E; [ | discriminate]. injection ST as <-. frames.
      eapply cache_ok_ext; [ | | exact H]; congruence.
    - destruct (getFeatureDefault create f w) as [[w1 r] | ] eqn:E; [ | discriminate]. injection ST as <-.
      apply getFeatureDefault_frame in E. destruct E as (A & _ & B & _).
      eapply cache_ok_ext; [ | | exact H]; [congruence | ]. intros d. apply (with_value_eq _ _ (B d)).
    - injection ST as <-. apply (cache_ok_ext p w); [now rewrite typeDefault_packages | | exact H].
      intros d. apply (with_value_eq _ _ (typeDefault_classifier c w d)).
    - injection ST as <-. unfold getReferenceType.
      repeat match goal with |- context [match ?x with _ => _ end] => destruct x end; exact H.
    - injection ST as <-. unfold getClassifierID. destruct (cnumber _ =? -1); [ | exact H].
      apply (cache_ok_ext p w); [reflexivity | | exact H]. intros d. cbn. unfold upd. destruct (Nat.eqb_spec d c); subst; auto.
  Qed.
  Lemma cache_run p h w w' : Forall keeps_names h -> run h w = Some w' -> cache_ok p w -> cache_ok p w'.
  Proof.
    revert w. induction h as [ | o h IH]; cbn; intros w K R H; [congruence | ].
    destruct (step o w) as [w1 | ] eqn:E; [ | discriminate]. inversion K; subst.
    eapply IH; eauto. eapply cache_step; eauto.
  Qed.
  Lemma cache_named p w n : cache_ok p w -> named w p n (snd (getEClassifier p n w)).
  Proof using. clear create convert.
    clear. intros [_ H]. unfold getEClassifier, named. destruct H as [-> | ->]; cbn; apply by_name_last.
  Qed.
  Lemma change_ok p o w w' : changes_list p o w -> step o w = Some w' -> pdeliver (packages w p) = true -> cache_ok p w'.
  Proof.
    intros C ST D. destruct o; cbn in C; try (destruct C; fail); cbn in ST; injection ST as <-; destruct C as [-> I].
    - unfold addClassifier.
      assert (in_list (pclassifiers (packages w p)) c = false) as ->.
      { apply not_true_is_false. intros F. unfold in_list in F. apply existsb_exists in F. destruct F as (x & A & B).
        apply Nat.eqb_eq in B. congruence. }
      set (w1 := match cpackage (classifiers w c) with Some q => removeClassifier q c w | None => w end).
      assert (D1 : pdeliver (packages w1 p) = true).
      { subst w1. destruct (cpackage _); [ | exact D]. unfold removeClassifier. destruct (in_list _ _); [ | exact D].
        cbn. unfold upd. destruct (Nat.eqb_spec p n); [subst | exact D]. unfold changed. cbn. rewrite D. cbn. exact D. }
      clearbody w1. cbn zeta.
      eapply cache_ok_ext with (w := on_list p (fun l => l ++ [c]) w1); [reflexivity | | now apply changed_ok].
      intros d. cbn. unfold upd. destruct (Nat.eqb_spec d c); subst; auto.
    - unfold removeClassifier.
      assert (in_list (pclassifiers (packages w p)) c = true) as ->.
      { unfold in_list. apply existsb_exists. exists c. split; [auto | apply Nat.eqb_refl]. }
      eapply cache_ok_ext with (w := on_list p (out_of c) w); [reflexivity | | now apply changed_ok].
      intros d. cbn. unfold upd. destruct (Nat.eqb_spec d c); subst; auto.
  Qed.
  Lemma run_app h1 h2 w : run (h1 ++ h2) w = match run h1 w with Some w1 => run h2 w1 | None => None end.
  Proof. revert w. induction h1; cbn; intros w; [reflexivity | ]. destruct (step a w); auto. Qed.

  Theorem classifiers_found h w w' p n :
    fresh w -> Forall keeps_names h -> run h w = Some w' -> named w' p n (snd (getEClassifier p n w')).
  Proof.
    intros (_ & F & _) K R. apply cache_named. eapply cache_run; eauto. destruct (F p). split; auto.
  Qed.
  Theorem classifiers_found_again h1 o h2 w w1 w' p n :
    run h1 w = Some w1 -> pdeliver (packages w1 p) = true -> changes_list p o w1 ->
    Forall keeps_names h2 -> run (o :: h2) w1 = Some w' -> named w' p n (snd (getEClassifier p n w')).
  Proof.
    intros _ D C K R. apply cache_named. cbn in R. destruct (step o w1) as [w2 | ] eqn:E; [ | discriminate].
    eapply cache_run; eauto. eapply change_ok; eauto.
  Qed.
End Meta.
