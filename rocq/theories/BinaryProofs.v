(** Proofs about BinaryModel: the tables of the encoder and the decoder stay equal. *)
From Verif Require Import Base Chars ListModel ListSpec ListProofs BinaryListModel BinaryListProofs BinaryModel BinarySpec.

Lemma index_where_some {X} (f : X -> bool) l i : index_where f l = Some i -> exists x, nth_error l i = Some x /\ f x = true.
Proof.
  revert i; induction l as [|y l IH]; intros i; cbn; [discriminate|].
  destruct (f y) eqn:Ef; [intros [= <-]; cbn; eauto|].
  destruct (index_where f l) as [j|]; cbn; [|discriminate]. intros [= <-]. cbn. now apply IH.
Qed.
Lemma index_where_none {X} (f : X -> bool) l x : index_where f l = None -> In x l -> f x = false.
Proof.
  induction l as [|y l IH]; cbn; [tauto|]. destruct (f y) eqn:Ef; [discriminate|].
  destruct (index_where f l); [discriminate|]. intros _ [<-|H]; auto.
Qed.

Lemma set_nth_length {X} i (x : X) l : length (set_nth i x l) = length l.
Proof. revert i; induction l; intros [|i]; cbn; auto. Qed.
Lemma set_nth_same {X} i (x : X) l : (i < length l)%nat -> nth_error (set_nth i x l) i = Some x.
Proof. revert i; induction l; intros [|i] H; cbn in *; try lia; auto. apply IHl. lia. Qed.
Lemma set_nth_other {X} i j (x : X) l : i <> j -> nth_error (set_nth i x l) j = nth_error l j.
Proof. revert i j; induction l; intros [|i] [|j] H; cbn; auto; congruence. Qed.
Lemma set_nth_app {X} i (x y : X) l : i = length l -> set_nth i x (l ++ [y]) = l ++ [x].
Proof. intros ->. induction l; cbn; congruence. Qed.

Lemma zget_of_nat {X} (l : list X) i : zget l (Z.of_nat i) = nth_error l i.
Proof. unfold zget. replace (Z.of_nat i <? 0) with false by lia. now rewrite Nat2Z.id. Qed.
Lemma nth_error_lt {X} (l : list X) i x : nth_error l i = Some x -> (i < length l)%nat.
Proof. intro H. apply nth_error_Some. congruence. Qed.
Lemma nth_error_last {X} (l : list X) x : nth_error (l ++ [x]) (length l) = Some x.
Proof. rewrite nth_error_app2 by lia. now rewrite Nat.sub_diag. Qed.

Section P.
  Context {D DT U I : Type} (E : env D DT U) (heap : nat -> object D U I) (with_ids : bool).
  Context (all contents : list nat) (G : good E heap all contents).

  Definition with_uris (d : dstate D DT U I) (us : list U) :=
    mkDS (dobjects d) (dpackages d) (dfeatures d) us (denums d).
  Definition with_packages (d : dstate D DT U I) (ps : list (nat * list nat)) :=
    mkDS (dobjects d) ps (dfeatures d) (duris d) (denums d).

  (** *** URIs *)
  Lemma uri_round e d u f ts e' rest : duris d = euris e -> uri_ok E u ->
    enc_uri (I := I) E (Some u) f e = (ts, e') ->
    dec_uri E d (ts ++ rest) = Done (Some (e_with_fragment E u f), with_uris d (euris e'), rest)
    /\ eobjects e' = eobjects e /\ epackages e' = epackages e /\ enamed e' = enamed e /\ eenums e' = eenums e
    /\ ts <> [].
  Proof.
    intros Hu Hok. unfold enc_uri.
    destruct (index_where _ (euris e)) as [i|] eqn:Ei; intros [= <- <-].
    - apply index_where_some in Ei. destruct Ei as (v & Hv & Ev). apply str_eqb_eq in Ev.
      apply (g_uri_text _ _ _ _ G) in Ev. subst v.
      split; [|repeat split; auto; discriminate]. cbn [app dec_uri].
      replace (Z.of_nat i =? -1) with false by lia.
      pose proof (nth_error_lt _ _ _ Hv).
      replace (zlen (duris d) <=? Z.of_nat i) with false by (rewrite Hu; zl).
      rewrite zget_of_nat, Hu, Hv. cbn [rbind]. rewrite <- Hu. now destruct d.
    - split; [|repeat split; auto; discriminate]. cbn [app dec_uri].
      pose proof (zlen_nonneg (euris e)).
      replace (zlen (euris e) =? -1) with false by lia.
      replace (zlen (duris d) <=? zlen (euris e)) with true by (rewrite Hu; lia).
      rewrite Hok. cbn [rbind euris]. now rewrite Hu.
  Qed.

  Lemma whole_uri_round e d u ts e' rest : duris d = euris e -> (forall u', u = Some u' -> uri_ok E (e_trim E u')) ->
    enc_whole_uri (I := I) E u e = (ts, e') ->
    dec_uri E d (ts ++ rest) = Done (u, with_uris d (euris e'), rest)
    /\ eobjects e' = eobjects e /\ epackages e' = epackages e /\ enamed e' = enamed e /\ eenums e' = eenums e.
  Proof.
    intros Hu Hok. unfold enc_whole_uri. destruct u as [u|].
    - intro H. destruct (uri_round e d _ _ ts e' rest Hu (Hok u eq_refl) H) as (H1 & H2 & H3 & H4 & H5 & _).
      rewrite H1, (g_uri_fragment _ _ _ _ G). auto.
    - intros [= <- <-]. cbn [app dec_uri]. change (-1 =? -1) with true. cbn.
      split; [|auto]. rewrite <- Hu. now destruct d.
  Qed.

  (** *** classes *)
  Lemma known_package_some p (l : list (nat * list nat)) i cs : known_package p l = Some (i, cs) ->
    nth_error l i = Some (p, cs).
  Proof.
    unfold known_package. destruct (index_where _ l) as [j|] eqn:Ej; [|discriminate].
    apply index_where_some in Ej. destruct Ej as ((q, qs) & Hq & Hp). apply Nat.eqb_eq in Hp. cbn in Hp. subst q.
    rewrite Hq. intros [= <- <-]. exact Hq.
  Qed.

  Lemma class_named_ok p c : In (e_cname E c, Some c) (e_classifiers E p) -> NoDup (map fst (e_classifiers E p)) ->
    class_named E p (e_cname E c) = Some c.
  Proof.
    unfold class_named. generalize (e_classifiers E p) as l. induction l as [|[s o] l IH]; cbn; [tauto|].
    intros H Hnd. inversion Hnd; subst. destruct (str_eqb s (e_cname E c)) eqn:Es.
    - apply str_eqb_eq in Es. subst s. destruct H as [[= ->]|H]; [reflexivity|].
      exfalso. apply H2. apply in_map_iff. exists (e_cname E c, Some c). auto.
    - destruct H as [[= -> ->]|H]; [rewrite str_eqb_refl in Es; discriminate|]. now apply IH.
  Qed.

  Lemma class_round e d x ts e' rest : In x all -> duris d = euris e -> dpackages d = epackages e ->
    enc_class (I := I) E (oclass (heap x)) e = Done (ts, e') ->
    dec_class E d (ts ++ rest) = Done (oclass (heap x), with_packages (with_uris d (euris e')) (epackages e'), rest)
    /\ eobjects e' = eobjects e /\ enamed e' = enamed e /\ eenums e' = eenums e.
  Proof.
    intros Hx Hu Hp. set (c := oclass (heap x)).
    destruct (g_class _ _ _ _ G x Hx) as [Hin Hnd]. fold c in Hin, Hnd. pose proof (class_named_ok _ _ Hin Hnd) as Hname.
    destruct (g_package _ _ _ _ G x Hx) as [Hget Huri]. fold c in Hget, Huri.
    unfold enc_class. cbv zeta.
    destruct (known_package (e_cpackage E c) (epackages e)) as [[i cs]|] eqn:Ek.
    - pose proof (known_package_some _ _ _ _ Ek) as Hi.
      pose proof (nth_error_lt _ _ _ Hi) as Hlt.
      destruct (index_where (Nat.eqb c) cs) as [j|] eqn:Ej.
      + intros [= <- <-]. split; [|auto].
        apply index_where_some in Ej. destruct Ej as (c' & Hj & Hc). apply Nat.eqb_eq in Hc. subst c'.
        unfold dec_class, dec_package. cbn [app].
        replace (zlen (dpackages d) <=? Z.of_nat i) with false by (rewrite Hp; zl).
        replace (Z.of_nat i <? 0) with false by lia. cbn [rbind].
        rewrite Nat2Z.id, Hp, Hi. rewrite zget_of_nat, Hj. rewrite <- Hp, <- Hu. now destruct d.
      + unfold enc_package. rewrite Ek.
        destruct (Nat.ltb_spec (length cs) (length (e_classifiers E (e_cpackage E c)))) as [Hlen|]; [|discriminate].
        intros [= <- <-]. cbn [eobjects epackages enamed euris eenums]. split; [|auto].
        unfold dec_class, dec_package. cbn [app].
        replace (zlen (dpackages d) <=? Z.of_nat i) with false by (rewrite Hp; zl).
        replace (Z.of_nat i <? 0) with false by lia. cbn [rbind].
        rewrite Nat2Z.id, Hp, Hi. unfold zlen at 1. rewrite zget_of_nat.
        rewrite (proj2 (nth_error_None cs (length cs))) by lia.
        rewrite Z.eqb_refl. replace (length cs <? length (e_classifiers E (e_cpackage E c)))%nat with true by lia.
        cbn [andb]. rewrite Hname. rewrite <- Hu. now destruct d.
    - unfold enc_package. rewrite Ek.
      destruct (enc_whole_uri E (e_puri E (e_cpackage E c)) e) as [tu e1] eqn:Eu.
      destruct (Nat.ltb_spec (length (@nil nat)) (length (e_classifiers E (e_cpackage E c)))) as [Hlen|]; [|discriminate].
      intros [= <- <-]. cbn [eobjects epackages enamed euris eenums].
      destruct (whole_uri_round e d _ tu e1 (TInt (zlen (@nil nat)) :: TStr (e_cname E c) :: rest) Hu Huri Eu) as (Hd & Ho & Hpk & Hn & Hen).
      split; [|auto].
      unfold dec_class, dec_package. cbn [app].
      replace (zlen (dpackages d) <=? Z.of_nat (length (epackages e))) with true by (rewrite Hp; zl).
      rewrite <- app_assoc. cbn [app]. rewrite Hd. cbn [rbind]. rewrite Hget. cbn [rbind dpackages dobjects dfeatures duris denums with_uris].
      rewrite nth_error_last. change (zlen (@nil nat)) with 0. change (zget (@nil nat) 0) with (@None nat).
      cbn [Z.eqb andb]. replace (length (@nil nat) <? length (e_classifiers E (e_cpackage E c)))%nat with true by lia.
      rewrite Hname. unfold with_packages, with_uris. cbn [dpackages dobjects dfeatures duris denums].
      rewrite !set_nth_app by (rewrite ?Hp, ?Hpk; reflexivity). rewrite Hp, Hpk. reflexivity.
  Qed.

  (** *** features *)
  Local Notation is_key c i := (fun p : nat * nat * feature DT => Nat.eqb (fst (fst p)) c && Nat.eqb (snd (fst p)) i).
  Definition ftab (e : estate U) (d : dstate D DT U I) : Prop :=
    forall c i, match find (is_key c i) (dfeatures d) with
                | Some (_, f) => In (c, i) (enamed e) /\ nth_error (e_cfeatures E c) i = Some f
                | None => ~ In (c, i) (enamed e)
                end.

  Lemma feature_named_ok c i f : NoDup (map fname (e_cfeatures E c)) -> nth_error (e_cfeatures E c) i = Some f ->
    feature_named E c (fname f) = Some f.
  Proof.
    intros Hnd Hf. apply nth_error_In in Hf. unfold feature_named.
    rewrite in_rev in Hf.
    assert (Hnd' : NoDup (map fname (rev (e_cfeatures E c)))) by (rewrite map_rev; now apply NoDup_rev).
    revert Hf Hnd'. generalize (rev (e_cfeatures E c)) as l. clear. induction l as [|g l IH]; cbn; [tauto|].
    intros H Hnd. inversion Hnd; subst. destruct H as [->|H]; [now rewrite str_eqb_refl|].
    destruct (str_eqb (fname g) (fname f)) eqn:Es; [|now apply IH].
    apply str_eqb_eq in Es. exfalso. apply H2. rewrite Es. now apply in_map.
  Qed.

  Lemma name_round e d x i f ts e' : In x all -> ftab e d ->
    nth_error (e_cfeatures E (oclass (heap x))) i = Some f ->
    enc_name (I := I) (oclass (heap x)) i f e = (ts, e') ->
    exists ts1 fs, ts = TInt (Z.of_nat i + 1) :: ts1 /\
      (forall rest, dec_feature E (oclass (heap x)) i d (ts1 ++ rest)
        = Done (f, mkDS (dobjects d) (dpackages d) fs (duris d) (denums d), rest)) /\
      ftab e' (mkDS (dobjects d) (dpackages d) fs (duris d) (denums d)) /\
      eobjects e' = eobjects e /\ epackages e' = epackages e /\ euris e' = euris e /\ eenums e' = eenums e.
  Proof.
    intros Hx Ht Hf. set (c := oclass (heap x)) in *. unfold enc_name.
    destruct (g_names _ _ _ _ G x Hx) as [Hnd Hne]. fold c in Hnd, Hne.
    pose proof (nth_error_lt _ _ _ Hf) as Hlt.
    pose proof (Ht c i) as Hci.
    destruct (existsb _ (enamed e)) eqn:Ex.
    - intros [= <- <-]. exists [], (dfeatures d). split; [reflexivity|].
      assert (Hin : In (c, i) (enamed e)).
      { apply existsb_exists in Ex. destruct Ex as ([c' i'] & Hin & H). cbn in H. apply andb_prop in H.
        destruct H as [H1 H2]. apply Nat.eqb_eq in H1, H2. congruence. }
      split; [|split; [|auto]].
      + intro rest. unfold dec_feature. replace (length (e_cfeatures E c) <=? i)%nat with false by lia.
        destruct (find (is_key c i) (dfeatures d)) as [[k0 f0]|] eqn:Efd; [|contradiction].
        destruct Hci as [_ Hf0]. rewrite Hf in Hf0. injection Hf0 as <-. now destruct d.
      + now destruct d.
    - destruct (fname f) as [|a nm] eqn:En; [exfalso; apply (Hne f); [now apply nth_error_In in Hf|exact En]|].
      rewrite <- En. intros [= <- <-]. exists [TStr (fname f)], ((c, i, f) :: dfeatures d).
      split; [reflexivity|].
      assert (Hnin : ~ In (c, i) (enamed e)).
      { intro Hin. assert (existsb (fun p => Nat.eqb (fst p) c && Nat.eqb (snd p) i) (enamed e) = true) as Hex.
        { apply existsb_exists. exists (c, i). split; [exact Hin|]. cbn. now rewrite !Nat.eqb_refl. }
        congruence. }
      split; [|split; [|auto]].
      + intro rest. unfold dec_feature. replace (length (e_cfeatures E c) <=? i)%nat with false by lia.
        destruct (find (is_key c i) (dfeatures d)) as [[k0 f0]|] eqn:Efd; [tauto|].
        cbn [app]. rewrite (feature_named_ok c i f Hnd Hf). reflexivity.
      + intros c' i'. cbn [dfeatures find fst snd enamed].
        destruct (Nat.eqb_spec c c') as [->|Hc]; destruct (Nat.eqb_spec i i') as [->|Hi]; cbn [andb].
        * split; [left; reflexivity|exact Hf].
        * specialize (Ht c' i'). destruct (find (is_key c' i') (dfeatures d)) as [[k0 f0]|].
          -- split; [right; tauto|tauto].
          -- intros [[= H]|H]; [congruence|contradiction].
        * specialize (Ht c' i'). destruct (find (is_key c' i') (dfeatures d)) as [[k0 f0]|].
          -- split; [right; tauto|tauto].
          -- intros [[= H]|H]; [congruence|contradiction].
        * specialize (Ht c' i'). destruct (find (is_key c' i') (dfeatures d)) as [[k0 f0]|].
          -- split; [right; tauto|tauto].
          -- intros [[= H]|H]; [congruence|contradiction].
  Qed.

  (** *** copies only refer to known objects, so they stay copies *)
  Lemma ref_copy_ext t t' r r' : (exists l, t' = t ++ l) -> ref_copy t r r' -> ref_copy t' r r'.
  Proof.
    intros [l ->]. unfold ref_copy. destruct r, r'; auto. intros [chk H]. exists chk.
    rewrite nth_error_app1; [exact H|]. now apply nth_error_lt in H.
  Qed.
  Lemma value_copy_ext t t' (v v' : value D) : (exists l, t' = t ++ l) -> value_copy t v v' -> value_copy t' v v'.
  Proof.
    intro Hl. destruct v, v'; cbn; auto; [now apply ref_copy_ext|].
    induction 1; constructor; auto. now apply (ref_copy_ext t).
  Qed.
  Lemma ref_copy_inj t r r' r2 : ref_copy t r r' -> ref_copy t r2 r' -> r = r2.
  Proof.
    unfold ref_copy. destruct r, r', r2; try tauto. intros [c1 H1] [c2 H2]. congruence.
  Qed.
  Lemma ref_copy_fun t r r1 r2 : NoDup (map fst t) -> ref_copy t r r1 -> ref_copy t r r2 -> r1 = r2.
  Proof.
    intro Hnd. unfold ref_copy. destruct r, r1, r2; try tauto. intros [c1 H1] [c2 H2]. f_equal.
    apply (NoDup_nth_error (map fst t)); auto.
    - rewrite map_length. now apply nth_error_lt in H1.
    - now rewrite !nth_error_map, H1, H2.
  Qed.
  Lemma value_copy_fun t (v v1 v2 : value D) : NoDup (map fst t) -> value_copy t v v1 -> value_copy t v v2 -> v1 = v2.
  Proof.
    intro Hnd. destruct v, v1, v2; cbn; try tauto; try congruence.
    - intros H1 H2. f_equal. now apply (ref_copy_fun t r).
    - intros H1 H2. f_equal. revert l1 H2. induction H1 as [|a b l l0 Hab Hl IH]; intros l1 H2; inversion H2; subst; auto.
      f_equal; [now apply (ref_copy_fun t a)|now apply IH].
  Qed.
  Lemma Forall2_NoDup t l l' : Forall2 (ref_copy t) l l' -> NoDup l -> NoDup l'.
  Proof.
    induction 1 as [|a b l l' Hab Hl IH]; intro Hnd; [constructor|]. inversion Hnd; subst. constructor; [|auto].
    intro Hb. apply H1. clear -Hb Hl Hab. induction Hl as [|c e l l' Hce Hl IH]; [destruct Hb|].
    destruct Hb as [->|Hb]; [left; now apply (ref_copy_inj t _ _ _ Hce Hab)|right; auto].
  Qed.

  Lemma object_copy_ext t t' x chk o' : (exists l, t' = t ++ l) ->
    object_copy E heap with_ids t x chk o' -> object_copy E heap with_ids t' x chk o'.
  Proof.
    intros Hl [Hc H]. split; [exact Hc|]. destruct H as [H|(H1 & H2 & H3 & H4 & H5 & H6)]; [left; exact H|right].
    split; [exact H1|]. split; [exact H2|]. split; [exact H3|]. split; [exact H4|]. split.
    - intros i v' Hin. destruct (H5 i v' Hin) as (f & v & Hf & Hp & Hv & Hcp). exists f, v.
      split; [exact Hf|]. split; [exact Hp|]. split; [exact Hv|]. now apply (value_copy_ext t).
    - intros i f v Hf Hp Hv. destruct (H6 i f v Hf Hp Hv) as (v' & Hin & Hcp). exists v'. split; [exact Hin|].
      now apply (value_copy_ext t).
  Qed.

  (** *** states in agreement *)
  Definition ok_check (chk : check) (x : nat) : Prop :=
    (chk = checkDirectResource -> exists y i, In y all /\ is_child E heap y i x)
    /\ (chk = checkContainer -> In x contents).

  Record sim (e : estate U) (d : dstate D DT U I) : Prop := {
    s_len : length (dobjects d) = length (eobjects e);
    s_nodup : NoDup (map fst (eobjects e));
    s_all : forall x chk, In (x, chk) (eobjects e) -> In x all /\ ok_check chk x;
    s_pk : dpackages d = epackages e;
    s_ur : duris d = euris e;
    s_en : denums d = eenums e;
    s_ft : ftab e d;
    s_sub : forall k x chk o', nth_error (eobjects e) k = Some (x, chk) -> nth_error (dobjects d) k = Some o' ->
      dclass o' = oclass (heap x) /\
      forall i v', In (i, v') (dvalues o') -> exists v, ovalue (heap x) i = Some v /\ value_copy (eobjects e) v v' }.

  Definition ext (e e' : estate U) : Prop := exists l, eobjects e' = eobjects e ++ l.
  Lemma ext_refl e : ext e e. Proof. exists []. now rewrite app_nil_r. Qed.
  Lemma ext_eq e e' : eobjects e' = eobjects e -> ext e e'. Proof. intro H. exists []. now rewrite app_nil_r. Qed.
  Lemma ext_trans e1 e2 e3 : ext e1 e2 -> ext e2 e3 -> ext e1 e3.
  Proof. intros [l1 H1] [l2 H2]. exists (l1 ++ l2). rewrite H2, H1. now rewrite app_assoc. Qed.
  Lemma ext_nth e e' k p : ext e e' -> nth_error (eobjects e) k = Some p -> nth_error (eobjects e') k = Some p.
  Proof. intros [l ->] H. rewrite nth_error_app1; [exact H|]. now apply nth_error_lt in H. Qed.
  Lemma ext_len e e' : ext e e' -> (length (eobjects e) <= length (eobjects e'))%nat.
  Proof. intros [l ->]. rewrite app_length. lia. Qed.
  Lemma ext_inv e e' k p : ext e e' -> (k < length (eobjects e))%nat -> nth_error (eobjects e') k = Some p -> nth_error (eobjects e) k = Some p.
  Proof. intros [l ->] Hk H. now rewrite nth_error_app1 in H. Qed.

  (** objects numbered from [n] on are complete *)
  Definition complete (n : nat) (e : estate U) (d : dstate D DT U I) : Prop :=
    forall k x chk o', (n <= k)%nat -> nth_error (eobjects e) k = Some (x, chk) -> nth_error (dobjects d) k = Some o' ->
      object_copy E heap with_ids (eobjects e) x chk o'.

  Definition post (e : estate U) (d : dstate D DT U I) (e' : estate U) (d' : dstate D DT U I) : Prop :=
    sim e' d' /\ ext e e' /\
    (forall k, (k < length (eobjects e))%nat -> nth_error (dobjects d') k = nth_error (dobjects d) k) /\
    complete (length (eobjects e)) e' d'.

  Lemma complete_none e d : sim e d -> complete (length (eobjects e)) e d.
  Proof. intros H k x chk o' Hk Hn. apply nth_error_lt in Hn. lia. Qed.

  Lemma post_trans e1 d1 e2 d2 e3 d3 : sim e1 d1 -> post e1 d1 e2 d2 -> post e2 d2 e3 d3 -> post e1 d1 e3 d3.
  Proof.
    intros S1 (S2 & X12 & F12 & C12) (S3 & X23 & F23 & C23).
    pose proof (ext_len _ _ X12) as Hl.
    split; [exact S3|]. split; [now apply (ext_trans _ e2)|]. split.
    - intros k Hk. rewrite F23 by lia. now apply F12.
    - intros k x chk o' Hk He Hd.
      destruct (Nat.lt_ge_cases k (length (eobjects e2))) as [Hlt|Hge]; [|now apply (C23 k)].
      apply (object_copy_ext (eobjects e2)); [exact X23|].
      apply (C12 k); auto.
      + now apply (ext_inv e2 e3).
      + rewrite <- F23; [exact Hd|]. exact Hlt.
  Qed.

  (** *** setting a feature *)
  Lemma ref_eqb_ok a b : reflect (a = b) (ref_eqb a b).
  Proof.
    destruct a as [x|], b as [y|]; cbn; try (constructor; congruence).
    destruct (Nat.eqb_spec x y); constructor; congruence.
  Qed.

  Lemma somes_in {X} (l : list (option X)) x : In x (somes l) <-> In (Some x) l.
  Proof.
    induction l as [|[y|] l IH]; cbn; [tauto| |].
    - rewrite IH. split; intros [H|H]; auto; [left; congruence|left; congruence].
    - rewrite IH. split; [auto|]. intros [H|H]; [discriminate|auto].
  Qed.

  (** a child of the copied value is a copy of a child *)
  Lemma children_copy t (v v' : value D) r : value_copy t v v' -> In r (children_of v') ->
    exists z chk, nth_error t r = Some (z, chk) /\ In z (refs v).
  Proof.
    destruct v, v'; cbn; try tauto.
    - destruct r1 as [k|]; [|intros _ []]. destruct r0 as [x|]; [|intros []].
      intros [chk H] [<-|[]]. exists x, chk. split; [exact H|]. left; reflexivity.
    - intros H Hr. apply somes_in in Hr.
      induction H as [|a b l l0 Hab Hl IH]; [destruct Hr|]. destruct Hr as [->|Hr].
      + destruct a as [x|]; [|destruct Hab]. destruct Hab as [chk H]. exists x, chk. split; [exact H|]. left; reflexivity.
      + destruct (IH Hr) as (z & chk & H1 & H2). exists z, chk. split; [exact H1|]. destruct a; [right|]; exact H2.
  Qed.

  Lemma strip_id t (w w' : value D) children : value_copy t w w' ->
    (forall r z chk, In r children -> nth_error t r = Some (z, chk) -> ~ In z (refs w)) -> strip children w' = w'.
  Proof.
    intros Hc Hno.
    assert (Hch : forall r, In r children -> ~ In r (children_of w')).
    { intros r Hr Hr'. destruct (children_copy t w w' r Hc Hr') as (z & chk & H1 & H2). now apply (Hno r z chk). }
    destruct w'; cbn in *; auto.
    - destruct r as [r|]; [|reflexivity]. destruct (existsb (Nat.eqb r) children) eqn:Ex; [|reflexivity].
      apply existsb_exists in Ex. destruct Ex as (r' & Hin & He). apply Nat.eqb_eq in He. subst r'.
      exfalso. apply (Hch r Hin). left; reflexivity.
    - f_equal. clear Hc Hno w. induction l as [|r l IH]; cbn; [reflexivity|].
      destruct (existsb (fun a => same_ref a r) children) eqn:Ex.
      + exfalso. apply existsb_exists in Ex. destruct Ex as (a & Hin & He). destruct r as [r|]; [|discriminate].
        cbn in He. apply Nat.eqb_eq in He. subst r. apply (Hch a Hin). left; reflexivity.
      + cbn [negb]. f_equal. apply IH. intros r' Hr' H. apply (Hch r' Hr'). destruct r; [right|]; exact H.
  Qed.

  Lemma containment_child x i z f v : nth_error (e_cfeatures E (oclass (heap x))) i = Some f -> containment (fkind f) = true ->
    ovalue (heap x) i = Some v -> In z (refs v) -> is_child E heap x i z.
  Proof.
    intros Hf Hk Hv Hz. exists f, v. split; [exact Hf|]. split; [|split; assumption].
    destruct (fkind f); try discriminate; auto.
  Qed.

  Lemma set_feature_ok e d k x chk o' i f v v' : sim e d ->
    nth_error (eobjects e) k = Some (x, chk) -> nth_error (dobjects d) k = Some o' ->
    nth_error (e_cfeatures E (oclass (heap x))) i = Some f -> ovalue (heap x) i = Some v ->
    value_copy (eobjects e) v v' -> ~ In i (map fst (dvalues o')) ->
    exists d', set_feature E k i f v' d = Done d' /\ sim e d' /\
      nth_error (dobjects d') k = Some (mkD (dclass o') (dproxy o') (did o') (dvalues o' ++ [(i, v')])) /\
      (forall j, j <> k -> nth_error (dobjects d') j = nth_error (dobjects d) j).
  Proof.
    intros S He Hd Hf Hv Hc Hi.
    assert (Hobj : (if containment (fkind f) then map (detach E (children_of v')) (dobjects d) else dobjects d) = dobjects d).
    { destruct (containment (fkind f)) eqn:Ek; [|reflexivity].
      assert (Hid : forall o, In o (dobjects d) -> detach E (children_of v') o = o); [|
        clear -Hid; induction (dobjects d) as [|o l IH]; cbn; [reflexivity|];
        rewrite Hid by (left; reflexivity); f_equal; apply IH; intros; apply Hid; right; assumption].
      intros o Ho. apply In_nth_error in Ho. destruct Ho as [k2 Ho].
      assert (exists p, nth_error (eobjects e) k2 = Some p) as [[y chk2] Hy].
      { apply nth_error_lt_some. rewrite <- (s_len _ _ S). now apply nth_error_lt in Ho. }
      destruct (s_sub _ _ S k2 y chk2 o Hy Ho) as [Hcl Hsub].
      unfold detach. destruct o as [oc op oi ov]. cbn [dclass dproxy did dvalues] in *. f_equal.
      assert (Hall : forall p, In p ov -> (fst p, if is_containment E oc (fst p) then strip (children_of v') (snd p) else snd p) = p).
      { intros [j w'] Hj. cbn [fst snd]. destruct (is_containment E oc j) eqn:Ec; [|reflexivity]. f_equal.
        destruct (Hsub j w' Hj) as (w & Hw & Hcw).
        apply (strip_id (eobjects e) w); [exact Hcw|].
        intros r z chk3 Hr Hz Hzw.
        destruct (children_copy _ v v' r Hc Hr) as (z' & chk4 & Hz' & Hzv).
        assert (z' = z) by congruence. subst z'.
        unfold is_containment in Ec. rewrite Hcl in Ec.
        destruct (nth_error (e_cfeatures E (oclass (heap y))) j) as [g|] eqn:Eg; [|discriminate].
        pose proof (proj1 (s_all _ _ S x chk (nth_error_In _ _ He))) as Hx.
        pose proof (proj1 (s_all _ _ S y chk2 (nth_error_In _ _ Hy))) as Hya.
        destruct (g_contained_once _ _ _ _ G x i y j z Hx Hya) as [<- <-].
        - now apply (containment_child x i z f v).
        - now apply (containment_child y j z g w).
        - assert (k2 = k).
          { apply (NoDup_nth_error (map fst (eobjects e))); [apply (s_nodup _ _ S)| |].
            - rewrite map_length. now apply nth_error_lt in Hy.
            - now rewrite !nth_error_map, Hy, He. }
          subst k2. rewrite Ho in Hd. injection Hd as <-. apply Hi. cbn [dvalues].
          apply in_map_iff. exists (i, w'). auto. }
      clear -Hall. induction ov as [|p ov IH]; cbn; [reflexivity|].
      rewrite Hall by (left; reflexivity). f_equal. apply IH. intros; apply Hall; right; assumption. }
    unfold set_feature. rewrite Hobj, Hd. eexists. split; [reflexivity|].
    assert (Hput : put_value i v' (dvalues o') = dvalues o' ++ [(i, v')]).
    { unfold put_value. f_equal. clear -Hi. induction (dvalues o') as [|[j w] l IH]; cbn; [reflexivity|].
      cbn in Hi. destruct (Nat.eqb_spec j i) as [->|]; [exfalso; apply Hi; left; reflexivity|].
      cbn. f_equal. apply IH. intro; apply Hi; right; assumption. }
    rewrite Hput. pose proof (nth_error_lt _ _ _ Hd) as Hlt.
    split; [|split].
    - destruct S. constructor; cbn [dobjects dpackages dfeatures duris denums]; auto.
      + now rewrite set_nth_length.
      + intros k2 y chk2 o Hy Ho. destruct (Nat.eq_dec k2 k) as [->|Hne].
        * rewrite set_nth_same in Ho by exact Hlt. injection Ho as <-. cbn [dclass dvalues].
          rewrite He in Hy. injection Hy as <- <-. destruct (s_sub0 k x chk o' He Hd) as [H1 H2].
          split; [exact H1|]. intros j w Hj. apply in_app_or in Hj. destruct Hj as [Hj|[[= <- <-]|[]]]; [now apply H2|].
          eauto.
        * rewrite set_nth_other in Ho by congruence. now apply (s_sub0 k2 y chk2).
    - cbn [dobjects]. now apply set_nth_same.
    - intros j Hj. cbn [dobjects]. apply set_nth_other; congruence.
  Qed.

  Lemma get_value_none i (vs : list (nat * value D)) : ~ In i (map fst vs) -> get_value i vs = None.
  Proof.
    unfold get_value. induction vs as [|[j w] l IH]; cbn; [reflexivity|]. intro H.
    destruct (Nat.eqb_spec j i) as [->|]; [exfalso; apply H; left; reflexivity|]. apply IH. intro; apply H; right; assumption.
  Qed.
  Lemma current_list_nil (d : dstate D DT U I) k o' i : nth_error (dobjects d) k = Some o' -> ~ In i (map fst (dvalues o')) -> current_list k i d = [].
  Proof. intros Hd Hi. unfold current_list. rewrite Hd, get_value_none; auto. Qed.
  Lemma current_datas_nil (d : dstate D DT U I) k o' i : nth_error (dobjects d) k = Some o' -> ~ In i (map fst (dvalues o')) -> current_datas k i d = [].
  Proof. intros Hd Hi. unfold current_datas. rewrite Hd, get_value_none; auto. Qed.

  (** *** values *)
  Definition ok_ref (chk : check) (o : option nat) : Prop := forall x, o = Some x -> In x all /\ ok_check chk x.

  Definition round (N : nat) (enc : estate U -> check -> option nat -> result (list (token I) * estate U))
      (dec : dstate D DT U I -> list (token I) -> result (option nat * dstate D DT U I * list (token I))) : Prop :=
    forall e chk o ts e' d rest, enc e chk o = Done (ts, e') -> sim e d -> ok_ref chk o -> (length ts <= N)%nat ->
      exists r d', dec d (ts ++ rest) = Done (r, d', rest) /\ post e d e' d' /\ ref_copy (eobjects e') o r.

  Lemma objects_round N enc dec chk l e ts e' d rest : round N enc dec ->
    enc_objects enc chk l e = Done (ts, e') -> sim e d -> (forall o, In o l -> ok_ref chk o) -> (length ts <= N)%nat ->
    exists l' d', dec_objects dec (length l) d (ts ++ rest) = Done (l', d', rest) /\ post e d e' d'
      /\ Forall2 (ref_copy (eobjects e')) l l'.
  Proof.
    intro R. revert e ts d rest; induction l as [|o l IH]; intros e ts d rest; cbn [enc_objects length dec_objects].
    - intros [= <- <-] S _ _. exists [], d. split; [reflexivity|]. split; [|constructor].
      split; [exact S|]. split; [apply ext_refl|]. split; [auto|]. now apply complete_none.
    - destruct (enc e chk o) as [[t1 e1]| |] eqn:E1; cbn [rbind]; try discriminate.
      destruct (enc_objects enc chk l e1) as [[t2 e2]| |] eqn:E2; cbn [rbind]; try discriminate.
      intros [= <- <-] S Hok Hlen. rewrite app_length in Hlen.
      destruct (R e chk o t1 e1 d (t2 ++ rest) E1 S) as (r & d1 & Hd1 & P1 & C1); [apply Hok; left; reflexivity|lia|].
      destruct (IH e1 t2 d1 rest E2 (proj1 P1)) as (l' & d2 & Hd2 & P2 & C2); [intros; apply Hok; right; assumption|lia|].
      exists (r :: l'), d2. rewrite <- app_assoc, Hd1. cbn [rbind]. rewrite Hd2. cbn [rbind].
      split; [reflexivity|]. split; [now apply (post_trans e d e1 d1)|].
      constructor; [|exact C2]. apply (ref_copy_ext (eobjects e1)); [|exact C1]. exact (proj1 (proj2 P2)).
  Qed.

  Definition post_set (k i : nat) (v : value D) (o' : dobject D U I) e (d : dstate D DT U I) e' (d' : dstate D DT U I) : Prop :=
    sim e' d' /\ ext e e' /\
    (forall j, (j < length (eobjects e))%nat -> j <> k -> nth_error (dobjects d') j = nth_error (dobjects d) j) /\
    complete (length (eobjects e)) e' d' /\
    exists v', nth_error (dobjects d') k = Some (mkD (dclass o') (dproxy o') (did o') (dvalues o' ++ [(i, v')]))
               /\ value_copy (eobjects e') v v'.

  Lemma then_set e d e1 d1 k x chk o' i f v v' : post e d e1 d1 -> (k < length (eobjects e))%nat ->
    nth_error (eobjects e) k = Some (x, chk) -> nth_error (dobjects d) k = Some o' ->
    nth_error (e_cfeatures E (oclass (heap x))) i = Some f -> ovalue (heap x) i = Some v ->
    value_copy (eobjects e1) v v' -> ~ In i (map fst (dvalues o')) ->
    exists d2, set_feature E k i f v' d1 = Done d2 /\ post_set k i v o' e d e1 d2.
  Proof.
    intros (S1 & X & F & C) Hk He Hd Hf Hv Hc Hi.
    rewrite <- (F k Hk) in Hd.
    destruct (set_feature_ok e1 d1 k x chk o' i f v v' S1 (ext_nth _ _ _ _ X He) Hd Hf Hv Hc Hi) as (d2 & H1 & H2 & H3 & H4).
    exists d2. split; [exact H1|]. split; [exact H2|]. split; [exact X|]. split; [|split].
    - intros j Hj Hne. rewrite H4 by exact Hne. now apply F.
    - intros j y c o Hj Hy Ho. rewrite H4 in Ho by lia. now apply (C j).
    - exists v'. auto.
  Qed.

  Lemma post_id e d : sim e d -> post e d e d.
  Proof. intro S. split; [exact S|]. split; [apply ext_refl|]. split; [auto|]. now apply complete_none. Qed.

  Lemma list_do_add_empty {X} (eqb : X -> X -> bool) nilv u l : (forall a b, reflect (a = b) (eqb a b)) ->
    (u = true -> NoDup l) -> list_do eqb nilv u [] (AddAll (Ext l)) = Some l.
  Proof. intros. now apply list_do_empty. Qed.

  Lemma d_eqb_ok a b : reflect (a = b) (e_d_eqb E a b).
  Proof. apply iff_reflect. symmetry. apply (g_equality _ _ _ _ G). Qed.

  Lemma enum_round e (d : dstate D DT U I) s ts e' rest : sim e d -> enc_enum (I := I) s e = (ts, e') ->
    exists d', dec_enum d (ts ++ rest) = Done (s, d', rest) /\ post e d e' d'.
  Proof.
    intro S. unfold enc_enum. destruct (index_where (str_eqb s) (eenums e)) as [i|] eqn:Ei; intros [= <- <-].
    - apply index_where_some in Ei. destruct Ei as (s' & Hs & Es). apply str_eqb_eq in Es. subst s'.
      exists d. split; [|now apply post_id]. cbn [app dec_enum]. pose proof (nth_error_lt _ _ _ Hs).
      replace (zlen (denums d) <=? Z.of_nat i) with false by (rewrite (s_en _ _ S); zl).
      now rewrite zget_of_nat, (s_en _ _ S), Hs.
    - eexists. cbn [app dec_enum]. replace (zlen (denums d) <=? zlen (eenums e)) with true by (rewrite (s_en _ _ S); lia).
      split; [reflexivity|]. assert (S' : sim (mkE (eobjects e) (epackages e) (enamed e) (euris e) (eenums e ++ [s]))
        (mkDS (dobjects d) (dpackages d) (dfeatures d) (duris d) (denums d ++ [s]))).
      { destruct S. constructor; cbn; auto. congruence. }
      split; [exact S'|]. split; [now apply ext_eq|]. split; [auto|]. now apply complete_none in S'.
  Qed.

  Lemma strings_round dt l ts rest : (forall a, In a l -> e_create E dt (e_conv E dt a) = a) ->
    ts = map (fun a => TStr (e_conv E dt a)) l ->
    dec_strings (I := I) E dt (length l) (ts ++ rest) = Done (l, rest).
  Proof.
    intros H ->. induction l as [|a l IH]; cbn [map app length dec_strings]; [reflexivity|].
    rewrite IH by (intros; apply H; right; assumption). cbn [rbind]. rewrite H by (left; reflexivity). reflexivity.
  Qed.

  Lemma value_round N enc dec e d k x chk o' i f v ts e' rest : round N enc dec -> sim e d ->
    nth_error (eobjects e) k = Some (x, chk) -> nth_error (dobjects d) k = Some o' ->
    nth_error (e_cfeatures E (oclass (heap x))) i = Some f -> ovalue (heap x) i = Some v ->
    ~ In i (map fst (dvalues o')) -> enc_value E enc f v e = Done (ts, e') -> (length ts <= N)%nat ->
    exists d', dec_value E dec k i f d (ts ++ rest) = Done (d', rest) /\ post_set k i v o' e d e' d'.
  Proof.
    intros R S He Hd Hf Hv Hi Henc Hlen.
    pose proof (nth_error_lt _ _ _ He) as Hk.
    pose proof (proj1 (s_all _ _ S x chk (nth_error_In _ _ He))) as Hx.
    pose proof (g_fits _ _ _ _ G x i v f Hx Hv Hf) as Hfit. unfold fits in Hfit.
    assert (Hz : forall z, In z (refs v) -> In z all) by (intros; now apply (g_closed _ _ _ _ G x i v)).
    assert (Hone : forall c (o : nat), v = VObj (Some o) ->
       (c = checkDirectResource -> containment (fkind f) = true) -> c <> checkContainer -> enc e c (Some o) = Done (ts, e') ->
       exists d', (let! (o, d1, ts1) := dec d (ts ++ rest) in
                   let! d2 := set_feature E k i f (VObj o) d1 in Done (d2, ts1)) = Done (d', rest)
                  /\ post_set k i v o' e d e' d').
    { intros c o -> Hc Hc2 Ho.
      destruct (R e c (Some o) ts e' d rest Ho S) as (r & d1 & Hd1 & P1 & C1); [|exact Hlen|].
      { intros y [= <-]. split; [apply Hz; left; reflexivity|]. split; [|contradiction]. intro Hcc.
        exists x, i. split; [exact Hx|]. apply (containment_child x i o f (VObj (Some o))); auto. left; reflexivity. }
      destruct (then_set e d e' d1 k x chk o' i f _ (VObj r) P1 Hk He Hd Hf Hv C1 Hi) as (d2 & Hd2 & P2).
      exists d2. rewrite Hd1. cbn [rbind]. rewrite Hd2. split; [reflexivity|exact P2]. }
    assert (Hmany : forall c l, v = VObjs l -> (funique f = true -> NoDup l) ->
       (c = checkDirectResource -> containment (fkind f) = true) -> c <> checkContainer ->
       (let! (t, e1) := enc_objects enc c l e in Done (TInt (zlen l) :: t, e1)) = Done (ts, e') ->
       exists d', match ts ++ rest with
          | TInt n :: ts1 =>
              let! (l, d1, ts2) := dec_objects dec (Z.to_nat n) d ts1 in
              match reconcile ref_eqb None (funique f) (current_list k i d1) l with
              | Some l' => let! d2 := set_feature E k i f (VObjs l') d1 in Done (d2, ts2)
              | None => Fail
              end
          | _ => Fail
          end = Done (d', rest) /\ post_set k i v o' e d e' d').
    { intros c l -> Hu Hc Hc2.
      destruct (enc_objects enc c l e) as [[t e1]| |] eqn:El; cbn [rbind]; try discriminate.
      intros [= <- <-]. cbn [app length] in *.
      destruct (objects_round N enc dec c l e t e1 d rest R El S) as (l' & d1 & Hd1 & P1 & C1).
      { intros o Ho y ->. split; [apply Hz; now apply somes_in|]. split; [|contradiction]. intro Hcc.
        exists x, i. split; [exact Hx|]. apply (containment_child x i y f (VObjs l)); auto. now apply somes_in. }
      { lia. }
      replace (Z.to_nat (zlen l)) with (length l) by zl. rewrite Hd1. cbn [rbind].
      rewrite (current_list_nil d1 k o' i); [|rewrite (proj1 (proj2 (proj2 P1)) k Hk); exact Hd|exact Hi].
      rewrite (reconcile_none ref_eqb None ref_eqb_ok); [|intro Hun; apply (Forall2_NoDup _ l l' C1); auto].
      destruct (then_set e d e1 d1 k x chk o' i f _ (VObjs l') P1 Hk He Hd Hf Hv C1 Hi) as (d2 & Hd2 & P2).
      exists d2. rewrite Hd2. split; [reflexivity|exact P2]. }
    assert (Hset : forall e1 d1 v', post e d e1 d1 -> value_copy (eobjects e1) v v' ->
       exists d', (let! d2 := set_feature E k i f v' d1 in Done (d2, rest)) = Done (d', rest) /\ post_set k i v o' e d e1 d').
    { intros e1 d1 v' P1 Hc.
      destruct (then_set e d e1 d1 k x chk o' i f v v' P1 Hk He Hd Hf Hv Hc Hi) as (d2 & Hd2 & P2).
      exists d2. rewrite Hd2. split; [reflexivity|exact P2]. }
    unfold enc_value in Henc. unfold dec_value.
    destruct (fkind f) as [| | | | | | | | | |p| | |] eqn:Ek; try discriminate.
    - destruct v as [| | |[o|]|]; try discriminate. apply (Hone checkResource o); auto; discriminate.
    - destruct v as [| | |[o|]|]; try discriminate. apply (Hone checkNothing o); auto; discriminate.
    - destruct v as [| | |[o|]|]; try discriminate. apply (Hone checkResource o); auto; discriminate.
    - destruct v as [| | | |l]; try discriminate. apply (Hmany checkNothing l); auto; try discriminate. tauto.
    - destruct v as [| | | |l]; try discriminate. apply (Hmany checkResource l); auto; try discriminate. tauto.
    - destruct v as [| | |[o|]|]; try discriminate. apply (Hone checkNothing o); auto; discriminate.
    - destruct v as [| | |[o|]|]; try discriminate. apply (Hone checkDirectResource o); auto; discriminate.
    - destruct v as [| | | |l]; try discriminate. apply (Hmany checkNothing l); auto; try discriminate. tauto.
    - destruct v as [| | | |l]; try discriminate. apply (Hmany checkDirectResource l); auto; try discriminate. tauto.
    - destruct v as [q| | | |]; try discriminate.
      destruct (enc_prim p q) as [t|] eqn:Ep; [|discriminate]. injection Henc as <- <-. cbn [app].
      assert (dec_prim p t = Some q) as ->.
      { destruct p, q; cbn in Ep, Hfit; try discriminate; try contradiction; try (injection Ep as <-; cbn; congruence).
        destruct (intkind_eqb k0 k1); [|discriminate]. injection Ep as <-. cbn. congruence. }
      apply Hset; [now apply post_id|reflexivity].
    - destruct v as [|a| | |]; try discriminate. injection Henc as <- <-. cbn [app]. rewrite Hfit.
      apply Hset; [now apply post_id|reflexivity].
    - destruct v as [| |l| |]; try discriminate. injection Henc as <- <-. cbn [app].
      replace (Z.to_nat (zlen l)) with (length l) by zl. rewrite (strings_round (fdatatype f) l _ rest (proj1 Hfit) eq_refl).
      cbn [rbind]. rewrite (current_datas_nil d k o' i Hd Hi).
      rewrite (list_do_add_empty _ _ _ _ d_eqb_ok (proj2 Hfit)).
      apply Hset; [now apply post_id|reflexivity].
    - destruct v as [|a| | |]; try discriminate. injection Henc as Henc.
      destruct (enum_round e d _ ts e' rest S Henc) as (d1 & Hd1 & P1). rewrite Hd1. cbn [rbind]. rewrite Hfit.
      apply Hset; [exact P1|reflexivity].
  Qed.

  (** *** features of an object *)
  Lemma written_persistent chk (f : feature DT) : written chk f = true <-> persistent chk f.
  Proof.
    unfold written, persistent. destruct (ftransient f), chk, (fkind f); cbn; split; intros; try discriminate;
      try (destruct H; discriminate); auto; try (split; [reflexivity|intro; discriminate || reflexivity]);
      destruct H as [_ H]; specialize (H eq_refl); discriminate.
  Qed.

  Definition partial_copy (n : nat) (t : list (nat * check)) (x : nat) (chk : check) (o' : dobject D U I) : Prop :=
    NoDup (map fst (dvalues o')) /\
    (forall i v', In (i, v') (dvalues o') -> (i < n)%nat /\
        exists f v, nth_error (e_cfeatures E (oclass (heap x))) i = Some f /\ persistent chk f /\
                    ovalue (heap x) i = Some v /\ value_copy t v v') /\
    (forall i f v, (i < n)%nat -> nth_error (e_cfeatures E (oclass (heap x))) i = Some f -> persistent chk f ->
        ovalue (heap x) i = Some v -> exists v', In (i, v') (dvalues o') /\ value_copy t v v').

  Lemma partial_copy_ext n t t' x chk o' : (exists l, t' = t ++ l) -> partial_copy n t x chk o' -> partial_copy n t' x chk o'.
  Proof.
    intros Hl (H1 & H2 & H3). split; [exact H1|]. split.
    - intros i v' Hin. destruct (H2 i v' Hin) as (Hn & f & v & Hf & Hp & Hv & Hc). split; [exact Hn|].
      exists f, v. split; [exact Hf|]. split; [exact Hp|]. split; [exact Hv|]. now apply (value_copy_ext t).
    - intros i f v Hn Hf Hp Hv. destruct (H3 i f v Hn Hf Hp Hv) as (v' & Hin & Hc). exists v'. split; [exact Hin|].
      now apply (value_copy_ext t).
  Qed.

  Lemma partial_copy_key n t x chk o' : partial_copy n t x chk o' -> ~ In n (map fst (dvalues o')).
  Proof.
    intros (_ & H & _) Hin. apply in_map_iff in Hin. destruct Hin as ([i v'] & Hi & Hin). cbn in Hi. subst i.
    destruct (H n v' Hin). lia.
  Qed.

  Definition same_head (o o' : dobject D U I) : Prop := dclass o' = dclass o /\ dproxy o' = dproxy o /\ did o' = did o.

  Definition dec_loop (dec : dstate D DT U I -> list (token I) -> result (option nat * dstate D DT U I * list (token I)))
      (mm c k : nat) (d : dstate D DT U I) (ts : list (token I)) : result (dstate D DT U I * list (token I)) :=
    match ts with TInt z :: ts' => dec_features E dec mm c k (z - 1) d ts' | _ => Fail end.

  Lemma features_round N enc dec x chk k fs : round N enc dec ->
    forall pre i e d ts e' o' rest mm,
    e_cfeatures E (oclass (heap x)) = pre ++ fs -> length pre = i ->
    sim e d -> nth_error (eobjects e) k = Some (x, chk) -> nth_error (dobjects d) k = Some o' ->
    partial_copy i (eobjects e) x chk o' ->
    enc_features E heap enc chk x i fs e = Done (ts, e') -> (length ts <= N)%nat -> (S (length ts) <= mm)%nat ->
    exists d' o'', dec_loop dec mm (oclass (heap x)) k d (ts ++ TInt 0 :: rest) = Done (d', rest)
      /\ sim e' d' /\ ext e e' /\
      (forall j, (j < length (eobjects e))%nat -> j <> k -> nth_error (dobjects d') j = nth_error (dobjects d) j) /\
      complete (length (eobjects e)) e' d' /\
      nth_error (dobjects d') k = Some o'' /\ same_head o' o'' /\
      partial_copy (length (e_cfeatures E (oclass (heap x)))) (eobjects e') x chk o''.
  Proof.
    intro R. induction fs as [|f fs IH]; intros pre i e d ts e' o' rest mm Hfs Hpre S He Hd Hpc; cbn [enc_features].
    - intros [= <- <-] _ Hmm. destruct mm as [|mm]; [lia|].
      exists d, o'. cbn [app dec_loop dec_features]. change (0 - 1 =? -1) with true. cbn match.
      split; [reflexivity|]. split; [exact S|]. split; [apply ext_refl|]. split; [auto|].
      split; [now apply complete_none|]. split; [exact Hd|]. split; [repeat split|].
      rewrite Hfs, app_nil_r, Hpre. exact Hpc.
    - assert (Hf : nth_error (e_cfeatures E (oclass (heap x))) i = Some f).
      { rewrite Hfs, nth_error_app2 by lia. now rewrite Hpre, Nat.sub_diag. }
      assert (Hfs' : e_cfeatures E (oclass (heap x)) = (pre ++ [f]) ++ fs) by (now rewrite <- app_assoc).
      assert (Hpre' : length (pre ++ [f]) = Datatypes.S i) by (rewrite app_length; cbn; lia).
      destruct (if written chk f then ovalue (heap x) i else None) as [v|] eqn:Ew.
      + assert (Hw : written chk f = true /\ ovalue (heap x) i = Some v) by (destruct (written chk f); [auto|discriminate]).
        destruct Hw as [Hw Hv]. apply written_persistent in Hw.
        destruct (enc_name (oclass (heap x)) i f e) as [t1 e1] eqn:En.
        destruct (enc_value E enc f v e1) as [[t2 e2]| |] eqn:Ev; cbn [rbind]; try discriminate.
        destruct (enc_features E heap enc chk x (Datatypes.S i) fs e2) as [[t3 e3]| |] eqn:Ef; cbn [rbind]; try discriminate.
        intros [= <- <-] HN Hmm. rewrite !app_length in HN, Hmm.
        pose proof (proj1 (s_all _ _ S x chk (nth_error_In _ _ He))) as Hx.
        destruct (name_round e d x i f t1 e1 Hx (s_ft _ _ S) Hf En) as (t1' & dfs & -> & Hdf & Hft & Ho1 & Hp1 & Hu1 & Hn1).
        cbn [length] in HN, Hmm.
        set (d1 := mkDS (dobjects d) (dpackages d) dfs (duris d) (denums d)) in *.
        assert (S1 : sim e1 d1).
        { destruct S. constructor; cbn [d1 dobjects dpackages duris denums]; rewrite ?Ho1, ?Hp1, ?Hu1, ?Hn1; auto. }
        assert (He1 : nth_error (eobjects e1) k = Some (x, chk)) by (now rewrite Ho1).
        assert (Hd1 : nth_error (dobjects d1) k = Some o') by exact Hd.
        destruct (value_round N enc dec e1 d1 k x chk o' i f v t2 e2 (t3 ++ TInt 0 :: rest) R S1 He1 Hd1 Hf Hv
                    (partial_copy_key _ _ _ _ _ Hpc) Ev ltac:(lia))
          as (d2 & Hdv & S2 & X2 & F2 & C2 & v' & Hk2 & Hcv).
        destruct mm as [|mm]; [lia|].
        set (o2 := mkD (dclass o') (dproxy o') (did o') (dvalues o' ++ [(i, v')])) in *.
        assert (X12 : exists l, eobjects e2 = eobjects e ++ l) by (destruct X2 as [l Hl]; exists l; now rewrite Hl, Ho1).
        assert (Hpc2 : partial_copy (Datatypes.S i) (eobjects e2) x chk o2).
        { destruct (partial_copy_ext _ _ _ _ _ _ X12 Hpc) as (H1 & H2 & H3). unfold o2. split; [|split]; cbn [dvalues].
          - rewrite map_app. cbn [map fst]. apply NoDup_app_iff. split; [exact H1|]. split; [constructor; [intros []|constructor]|].
            intros j Hj [<-|[]]. now apply (partial_copy_key _ _ _ _ _ Hpc).
          - intros j w Hj. apply in_app_or in Hj. destruct Hj as [Hj|[[= <- <-]|[]]].
            + destruct (H2 j w Hj) as [Hlt Hr]. split; [lia|exact Hr].
            + split; [lia|]. exists f, v. auto.
          - intros j g w Hj Hg Hp Hw'. destruct (Nat.eq_dec j i) as [->|Hne].
            + rewrite Hf in Hg. injection Hg as <-. rewrite Hv in Hw'. injection Hw' as <-.
              exists v'. split; [|exact Hcv]. apply in_or_app. right; left; reflexivity.
            + destruct (H3 j g w ltac:(lia) Hg Hp Hw') as (w' & Hin & Hc). exists w'. split; [|exact Hc].
              apply in_or_app; auto. }
        destruct (IH (pre ++ [f]) (Datatypes.S i) e2 d2 t3 e3 o2 rest mm Hfs' Hpre' S2 (ext_nth _ _ _ _ X2 He1) Hk2 Hpc2 Ef
                    ltac:(lia) ltac:(lia)) as (d3 & o3 & Hd3 & S3 & X3 & F3 & C3 & Hk3 & Hh3 & Hpc3).
        exists d3, o3. split.
        { cbn [app dec_loop dec_features]. replace (Z.of_nat i + 1 - 1) with (Z.of_nat i) by lia.
          replace (Z.of_nat i =? -1) with false by lia. replace (Z.of_nat i <? 0) with false by lia.
          cbv zeta. rewrite Nat2Z.id, <- !app_assoc, Hdf. cbn [rbind]. fold d1. rewrite Hdv. cbn [rbind]. exact Hd3. }
        split; [exact S3|].
        assert (Xe : ext e e2) by exact X12.
        split; [now apply (ext_trans _ e2)|]. pose proof (ext_len _ _ Xe) as Hle. split; [|split; [|split; [exact Hk3|split; [exact Hh3|exact Hpc3]]]].
        * intros j Hj Hne. rewrite F3 by (lia || exact Hne). apply F2; [now rewrite Ho1|exact Hne].
        * intros j y c o Hj Hy Ho.
          destruct (Nat.lt_ge_cases j (length (eobjects e2))) as [Hlt|Hge]; [|now apply (C3 j)].
          pose proof (nth_error_lt _ _ _ He).
          apply (object_copy_ext (eobjects e2)); [exact X3|]. apply (C2 j).
          -- rewrite Ho1. exact Hj.
          -- now apply (ext_inv e2 e3).
          -- rewrite <- F3; [exact Ho|exact Hlt|lia].
      + intros Henc HN Hmm.
        apply (IH (pre ++ [f]) (Datatypes.S i) e d ts e' o' rest mm Hfs' Hpre' S He Hd); auto.
        destruct Hpc as (H1 & H2 & H3). split; [exact H1|]. split.
        * intros j w Hj. destruct (H2 j w Hj) as [Hlt Hr]. split; [lia|exact Hr].
        * intros j g w Hj Hg Hp Hw. destruct (Nat.eq_dec j i) as [->|Hne]; [|apply (H3 j g w); auto; lia].
          rewrite Hf in Hg. injection Hg as <-. apply written_persistent in Hp. rewrite Hp, Hw in Ew. discriminate.
  Qed.

  (** *** objects *)
  Lemma external_some chk x u f : In x all -> external E chk (heap x) = Some (u, f) ->
    exists r, u = Some r /\ uri_ok E r /\ outside E chk (heap x) (e_with_fragment E r f).
  Proof.
    intros Hx. unfold external, outside. destruct chk; try discriminate;
      destruct (oproxy (heap x)) as [p|] eqn:Ep.
    - intros [= <- <-]. exists (e_trim E p). split; [reflexivity|]. split; [now apply (g_proxy_uri _ _ _ _ G x)|].
      left. now rewrite (g_uri_fragment _ _ _ _ G).
    - intro H. destruct (g_direct_uri _ _ _ _ G x u f Hx H) as (r & -> & Hr). exists r. split; [reflexivity|].
      split; [exact Hr|]. right. eauto.
    - intros [= <- <-]. exists (e_trim E p). split; [reflexivity|]. split; [now apply (g_proxy_uri _ _ _ _ G x)|].
      left. now rewrite (g_uri_fragment _ _ _ _ G).
    - intro H. destruct (g_foreign_uri _ _ _ _ G x u f Hx H) as (r & -> & Hr). exists r. split; [reflexivity|].
      split; [exact Hr|]. right. eauto.
  Qed.

  Lemma external_none chk x u : external E chk (heap x) = None -> ~ outside E chk (heap x) u.
  Proof.
    unfold external, outside. destruct chk; try tauto; destruct (oproxy (heap x)) as [p|]; try discriminate;
      intros Hn [H|(_ & r & f & H & _)]; congruence.
  Qed.

  Lemma enc_features_head N enc dec x chk fs pre e ts e' d : round N enc dec ->
    sim e d -> In x all ->
    e_cfeatures E (oclass (heap x)) = pre ++ fs ->
    enc_features E heap enc chk x (length pre) fs e = Done (ts, e') ->
    ts = [] \/ exists i ts', ts = TInt (Z.of_nat i + 1) :: ts'.
  Proof.
    intros _ S Hx. revert pre. induction fs as [|f fs IH]; intros pre Hfs; cbn [enc_features].
    - intros [= <- <-]. auto.
    - destruct (if written chk f then ovalue (heap x) (length pre) else None) as [v|].
      + destruct (enc_name (oclass (heap x)) (length pre) f e) as [t1 e1] eqn:En.
        destruct (enc_value E enc f v e1) as [[t2 e2]| |]; cbn [rbind]; try discriminate.
        destruct (enc_features E heap enc chk x (Datatypes.S (length pre)) fs e2) as [[t3 e3]| |]; cbn [rbind]; try discriminate.
        intros [= <- <-].
        assert (Hf : nth_error (e_cfeatures E (oclass (heap x))) (length pre) = Some f).
        { rewrite Hfs, nth_error_app2 by lia. now rewrite Nat.sub_diag. }
        destruct (name_round e d x (length pre) f t1 e1 Hx (s_ft _ _ S) Hf En) as (t1' & dfs & -> & _).
        right. exists (length pre), (t1' ++ t2 ++ t3). reflexivity.
      + intro H. replace (Datatypes.S (length pre)) with (length (pre ++ [f])) in H by (rewrite app_length; cbn; lia).
        apply (IH (pre ++ [f])); auto. now rewrite <- app_assoc.
  Qed.

  Lemma index_where_fresh x (l : list (nat * check)) : index_where (fun p => Nat.eqb (fst p) x) l = None -> ~ In x (map fst l).
  Proof.
    intros H Hin. apply in_map_iff in Hin. destruct Hin as (p & Hp & Hin).
    pose proof (index_where_none _ _ p H Hin) as Hn. cbn in Hn. apply Nat.eqb_neq in Hn. congruence.
  Qed.

  Lemma object_round n : forall m, round m (enc_object E heap with_ids n) (dec_object E m).
  Proof.
    induction n as [|n IH]; intros m e chk o ts e' d rest; cbn [enc_object]; [discriminate|].
    unfold enc_object_body. destruct o as [x|].
    2: { intros [= <- <-] S _ Hm. cbn [length] in Hm. destruct m as [|m]; [lia|].
         exists None, d. cbn [app dec_object dec_object_body]. change (-1 =? -1) with true. cbn match.
         split; [reflexivity|]. split; [now apply post_id|exact Logic.I]. }
    destruct (index_where _ (eobjects e)) as [i|] eqn:Ei.
    { intros [= <- <-] S _ Hm. cbn [length] in Hm. destruct m as [|m]; [lia|].
      apply index_where_some in Ei. destruct Ei as ([y c] & Hy & Exy). cbn in Exy. apply Nat.eqb_eq in Exy. subst y.
      exists (Some i), d. cbn [app dec_object dec_object_body]. pose proof (nth_error_lt _ _ _ Hy).
      replace (Z.of_nat i =? -1) with false by lia.
      replace (zlen (dobjects d) <=? Z.of_nat i) with false by (unfold zlen; rewrite (s_len _ _ S); lia).
      replace (Z.of_nat i <? 0) with false by lia. rewrite Nat2Z.id.
      split; [reflexivity|]. split; [now apply post_id|]. exists c. exact Hy. }
    apply index_where_fresh in Ei. cbv zeta.
    set (e1 := mkE (eobjects e ++ [(x, chk)]) (epackages e) (enamed e) (euris e) (eenums e)).
    destruct (enc_class E (oclass (heap x)) e1) as [[tc e2]| |] eqn:Ec; cbn [rbind]; try discriminate.
    intros Henc S Hok Hm. destruct (Hok x eq_refl) as [Hx Hchk].
    assert (Hcls : forall rest', dec_class E d (tc ++ rest') =
        Done (oclass (heap x), with_packages (with_uris d (euris e2)) (epackages e2), rest')
        /\ eobjects e2 = eobjects e1 /\ enamed e2 = enamed e1 /\ eenums e2 = eenums e1).
    { intro rest'. apply (class_round e1 d x tc e2 rest' Hx); [apply (s_ur _ _ S)|apply (s_pk _ _ S)|exact Ec]. }
    destruct (Hcls []) as (_ & Ho2 & Hn2 & Hen2).
    set (d1 := with_packages (with_uris d (euris e2)) (epackages e2)) in *.
    set (k := length (eobjects e)).
    assert (Hk : length (dobjects d1) = k) by (exact (s_len _ _ S)).
    (* the state after the new object has been added *)
    assert (Hadd : forall o' e3 us, dclass o' = oclass (heap x) -> dvalues o' = [] -> eobjects e3 = eobjects e2 ->
        epackages e3 = epackages e2 -> enamed e3 = enamed e2 -> euris e3 = us -> eenums e3 = eenums e2 ->
        sim e3 (add_object o' (with_uris d1 us))).
    { intros o' e3 us Hoc Hov H1 H2 H3 H4 H5. destruct S.
      constructor; cbn [add_object with_uris dobjects dpackages dfeatures duris denums d1 with_packages]; rewrite ?H1, ?H2, ?H3, ?H4, ?H5, ?Ho2, ?Hn2, ?Hen2.
      - unfold e1. cbn [eobjects]. rewrite !app_length. cbn [length]. now rewrite s_len0.
      - unfold e1. cbn [eobjects]. rewrite map_app. cbn [map fst]. apply NoDup_app_iff. split; [exact s_nodup0|].
        split; [constructor; [intros []|constructor]|]. intros y Hy [<-|[]]. contradiction.
      - unfold e1. cbn [eobjects]. intros y c Hy. apply in_app_or in Hy. destruct Hy as [Hy|[[= <- <-]|[]]]; [now apply s_all0|auto].
      - reflexivity.
      - reflexivity.
      - exact s_en0.
      - intros c i. specialize (s_ft0 c i). cbn [dfeatures]. rewrite H3, Hn2. exact s_ft0.
      - intros j y c o Hy Ho. unfold e1 in Hy. cbn [eobjects] in Hy.
        destruct (Nat.lt_ge_cases j (length (eobjects e))) as [Hlt|Hge].
        + rewrite nth_error_app1 in Hy by exact Hlt. rewrite nth_error_app1 in Ho by (rewrite s_len0; exact Hlt).
          destruct (s_sub0 j y c o Hy Ho) as [Ha Hb]. split; [exact Ha|]. intros i v' Hin.
          destruct (Hb i v' Hin) as (v & Hv & Hc). exists v. split; [exact Hv|].
          apply (value_copy_ext (eobjects e)); [|exact Hc]. exists [(x, chk)]. reflexivity.
        + assert (j = length (eobjects e)) as ->.
          { apply nth_error_lt in Hy. rewrite app_length in Hy. cbn [length] in Hy. lia. }
          rewrite nth_error_last in Hy. injection Hy as <- <-.
          rewrite <- s_len0, nth_error_last in Ho. injection Ho as <-.
          split; [exact Hoc|]. rewrite Hov. intros i v' []. }
    assert (Hx2 : nth_error (eobjects e2) k = Some (x, chk)) by (rewrite Ho2; apply nth_error_last).
    destruct (external E chk (heap x)) as [[u f]|] eqn:Eext.
    - (* outside *)
      destruct (external_some chk x u f Hx Eext) as (r & -> & Hr & Hout).
      destruct (enc_uri E (Some r) f e2) as [tu e3] eqn:Eu. injection Henc as <- <-.
      cbn [length] in Hm. destruct m as [|m]; [lia|].
      set (o' := mkD (oclass (heap x)) (Some (e_with_fragment E r f)) None [] : dobject D U I).
      destruct (uri_round e2 d1 r f tu e3 (TInt 0 :: rest) eq_refl Hr Eu) as (Hdu & H1 & H2 & H3 & H5 & _).
      exists (Some k), (add_object o' (with_uris d1 (euris e3))). split; [|split].
      + cbn [app dec_object]. unfold dec_object_body. pose proof (zlen_nonneg (eobjects e)).
        replace (zlen (eobjects e) =? -1) with false by lia.
        replace (zlen (dobjects d) <=? zlen (eobjects e)) with true by (unfold zlen; rewrite (s_len _ _ S); lia).
        rewrite <- app_assoc. rewrite (proj1 (Hcls _)). cbn [rbind app].
        change (-2 - 1 =? -3) with true. cbn match. rewrite <- app_assoc. cbn [app]. rewrite Hdu. cbn [rbind].
        change (0 - 1 =? -2) with false. cbn match. cbn [rbind dec_features].
        change (0 - 1 =? -1) with true. cbn match. cbn [rbind]. now rewrite Hk.
      + assert (S' : sim e3 (add_object o' (with_uris d1 (euris e3)))) by (apply Hadd; auto).
        split; [exact S'|]. split; [exists [(x, chk)]; rewrite H1, Ho2; reflexivity|]. split.
        * intros j Hj. cbn [add_object with_uris dobjects d1 with_packages]. apply nth_error_app1.
          rewrite (s_len _ _ S). exact Hj.
        * intros j y c o Hj Hy Ho. rewrite H1, Ho2 in Hy. unfold e1 in Hy. cbn [eobjects] in Hy.
          assert (j = k) as -> by (apply nth_error_lt in Hy; rewrite app_length in Hy; cbn [length] in Hy; unfold k; lia).
          unfold k in Hy. rewrite nth_error_last in Hy. injection Hy as <- <-.
          cbn [add_object with_uris dobjects] in Ho. rewrite <- Hk, nth_error_last in Ho. injection Ho as <-.
          split; [reflexivity|]. left. exists (e_with_fragment E r f). auto.
      + exists chk. rewrite H1. exact Hx2.
    - (* inside *)
      destruct (enc_features E heap (enc_object E heap with_ids n) chk x 0 (e_cfeatures E (oclass (heap x))) e2) as [[tf e3]| |] eqn:Ef;
        cbn [rbind] in Henc; try discriminate.
      injection Henc as <- <-.
      cbn [length] in Hm. destruct m as [|m]; [lia|]. rewrite !app_length in Hm.
      set (idv := if with_ids then oid (heap x) else None) in *.
      set (o' := mkD (oclass (heap x)) None idv [] : dobject D U I).
      assert (Heta : with_uris d1 (euris e2) = d1) by reflexivity.
      assert (S2 : sim e2 (add_object o' d1)) by (rewrite <- Heta; apply Hadd; auto).
      assert (Hd2 : nth_error (dobjects (add_object o' d1)) k = Some o').
      { cbn [add_object dobjects]. rewrite <- Hk. apply nth_error_last. }
      assert (Hpc : partial_copy 0 (eobjects e2) x chk o').
      { split; [constructor|]. split; [intros i v' []|]. intros; lia. }
      assert (Hfeat : forall mm, (Datatypes.S (length tf) <= mm)%nat -> exists d' o'',
          dec_loop (dec_object E m) mm (oclass (heap x)) k (add_object o' d1) (tf ++ TInt 0 :: rest) = Done (d', rest)
          /\ sim e3 d' /\ ext e2 e3 /\
          (forall j, (j < length (eobjects e2))%nat -> j <> k -> nth_error (dobjects d') j = nth_error (dobjects (add_object o' d1)) j) /\
          complete (length (eobjects e2)) e3 d' /\
          nth_error (dobjects d') k = Some o'' /\ same_head o' o'' /\
          partial_copy (length (e_cfeatures E (oclass (heap x)))) (eobjects e3) x chk o'').
      { intros mm Hmm.
        apply (features_round m (enc_object E heap with_ids n) (dec_object E m) x chk k (e_cfeatures E (oclass (heap x))) (IH m) [] 0%nat e2 (add_object o' d1) tf e3 o' rest mm); auto.
        lia. }
      assert (Hhead : exists z ts', tf ++ TInt 0 :: rest = TInt z :: ts' /\ 0 <= z /\ (length tf <= length ts')%nat).
      { destruct (enc_features_head m _ _ x chk (e_cfeatures E (oclass (heap x))) [] e2 tf e3 _ (IH m) S2 Hx eq_refl Ef) as [->|(i & ts' & ->)].
        - exists 0, rest. cbn. split; [reflexivity|]. split; lia.
        - exists (Z.of_nat i + 1), (ts' ++ TInt 0 :: rest). cbn [app]. split; [reflexivity|].
          rewrite app_length. cbn [length]. split; lia. }
      destruct Hhead as (z & ts' & Hz & Hz0 & Hlts).
      destruct (Hfeat (Datatypes.S (length ts')) ltac:(lia)) as (d' & o'' & Hdl & S3 & X3 & F3 & C3 & Hk3 & (Hh1 & Hh2 & Hh3) & Hpc3).
      rewrite Hz in Hdl. cbn [dec_loop] in Hdl.
      exists (Some k), d'. split; [|split].
      + cbn [app dec_object]. unfold dec_object_body. pose proof (zlen_nonneg (eobjects e)).
        replace (zlen (eobjects e) =? -1) with false by lia.
        replace (zlen (dobjects d) <=? zlen (eobjects e)) with true by (unfold zlen; rewrite (s_len _ _ S); lia).
        rewrite <- !app_assoc. cbn [app]. rewrite (proj1 (Hcls _)). cbn [rbind]. rewrite Hz.
        unfold o' in *. rewrite Hk. destruct idv as [iv|] eqn:Eid.
        * cbn [app]. change (-1 - 1 =? -3) with false. cbn match. cbn [rbind].
          change (-1 - 1 =? -2) with true. cbn match. cbn [rbind].
          assert (set_id k iv (add_object (mkD (oclass (heap x)) None None []) d1) = add_object (mkD (oclass (heap x)) None (Some iv) []) d1) as ->.
          { unfold set_id, add_object. cbn [dobjects dpackages dfeatures duris denums].
            rewrite <- Hk, nth_error_last. cbn [dclass dproxy dvalues]. now rewrite set_nth_app. }
          rewrite Hdl. reflexivity.
        * cbn [app]. replace (z - 1 =? -3) with false by lia. cbn [rbind].
          replace (z - 1 =? -2) with false by lia. cbn [rbind]. rewrite Hdl. reflexivity.
      + split; [exact S3|].
        assert (X : ext e e3).
        { apply (ext_trans e e2); [exists [(x, chk)]; now rewrite Ho2|exact X3]. }
        split; [exact X|].
        assert (Hl2 : length (eobjects e2) = Datatypes.S k) by (rewrite Ho2; unfold e1; cbn [eobjects]; rewrite app_length; cbn [length]; unfold k; lia).
        split.
        * intros j Hj. rewrite F3 by (unfold k in *; lia). cbn [add_object dobjects d1 with_packages with_uris].
          apply nth_error_app1. rewrite (s_len _ _ S). exact Hj.
        * intros j y c o Hj Hy Ho. destruct (Nat.eq_dec j k) as [->|Hne].
          -- rewrite (ext_nth _ _ _ _ X3 Hx2) in Hy. injection Hy as <- <-. rewrite Hk3 in Ho. injection Ho as <-.
             destruct Hpc3 as (P1 & P2 & P3). split; [exact Hh1|]. right.
             split; [intro; now apply external_none|]. split; [exact Hh2|]. split; [exact Hh3|]. split; [exact P1|]. split.
             ++ intros i v' Hin. now apply P2.
             ++ intros i f v Hf Hp Hv. apply (P3 i f v); auto. now apply nth_error_lt in Hf.
          -- apply (C3 j); auto. unfold k in *. lia.
      + exists chk. apply (ext_nth _ _ _ _ X3 Hx2).
  Qed.

  (** *** the resource *)
  Lemma sim_start : sim e_start d_start.
  Proof.
    constructor; cbn; try reflexivity; try (intros; contradiction).
    - constructor.
    - intros c i. cbn. tauto.
    - intros [|k] x chk o' H; discriminate H.
  Qed.

  Lemma resource_round n ts : encode_resource E heap with_ids n contents = Done ts ->
    exists contents' objects', decode_resource E ts = Done (contents', objects')
      /\ graph_copy E heap with_ids contents contents' objects'.
  Proof.
    unfold encode_resource.
    destruct (enc_objects (enc_object E heap with_ids n) checkContainer (map Some contents) e_start) as [[t e]| |] eqn:Eo;
      cbn [rbind]; try discriminate.
    intros [= <-]. set (ts := TBytes signature :: TInt version :: TInt (zlen contents) :: t).
    destruct (objects_round (length ts) _ (dec_object E (length ts)) checkContainer (map Some contents) e_start t e d_start []
                (object_round n (length ts)) Eo sim_start) as (l & d & Hd & (S & _ & _ & C) & Hl).
    { intros o Ho x ->. apply in_map_iff in Ho. destruct Ho as (y & [= ->] & Hx).
      split; [now apply (g_contents _ _ _ _ G)|]. split; [discriminate|auto]. }
    { unfold ts. cbn [length]. lia. }
    rewrite app_nil_r, map_length in Hd.
    assert (Hnd : NoDup l).
    { apply (Forall2_NoDup _ _ _ Hl). apply FinFun.Injective_map_NoDup; [intros a b; congruence|].
      apply (g_contents_once _ _ _ _ G). }
    exists l, (dobjects d). split.
    - unfold decode_resource, ts at 1. destruct (list_eq_dec Z.eq_dec signature signature) as [_|Hn]; [|now contradiction Hn].
      cbn [negb]. rewrite Z.eqb_refl. cbn [negb].
      replace (Z.to_nat (zlen contents)) with (length contents) by (unfold zlen; lia).
      fold ts. rewrite Hd. cbn [rbind].
      rewrite (list_do_empty _ _ ref_eqb_ok) by (intros _; exact Hnd). reflexivity.
    - exists (eobjects e). split; [apply (s_nodup _ _ S)|]. split; [symmetry; apply (s_len _ _ S)|].
      split; [exact Hl|]. split.
      + intros x chk u Hx Hin Hout. destruct (g_roots _ _ _ _ G x Hx) as (Hp & Hf & Hch & _).
        destruct (s_all _ _ S x chk Hin) as [_ [Hdr _]]. destruct chk; cbn in Hout; try contradiction.
        * destruct (Hdr eq_refl) as (y & i & Hy & Hc). now apply (Hch y i).
        * destruct Hout as [H|(_ & r & f & H & _)]; congruence.
      + intros k x chk o' Hk Ho. apply (C k x chk o'); auto. cbn. lia.
  Qed.

  (** *** the encoder always succeeds *)
  Record einv (e : estate U) : Prop := {
    ei_nodup : NoDup (map fst (eobjects e));
    ei_all : incl (map fst (eobjects e)) all;
    ei_classes : forall p cs, In (p, cs) (epackages e) -> NoDup cs /\
      forall c, In c cs -> e_cpackage E c = p /\ In (e_cname E c, Some c) (e_classifiers E p) }.

  Lemma einv_fields e e' : eobjects e' = eobjects e -> epackages e' = epackages e -> einv e -> einv e'.
  Proof. intros H1 H2 [A B C]. constructor; rewrite ?H1, ?H2; auto. Qed.

  Lemma in_set_nth {X} i (x y : X) l : In y (set_nth i x l) -> y = x \/ In y l.
  Proof.
    revert i; induction l as [|z l IH]; intros [|i]; cbn; auto.
    - intros [H|H]; auto.
    - intros [H|H]; auto. destruct (IH i H); auto.
  Qed.

  Lemma enc_uri_fields u f e ts e' : enc_uri (I := I) E u f e = (ts, e') ->
    eobjects e' = eobjects e /\ epackages e' = epackages e.
  Proof.
    unfold enc_uri. destruct u as [u|]; [|intros [= <- <-]; auto].
    destruct (index_where _ _); intros [= <- <-]; auto.
  Qed.
  Lemma enc_whole_uri_fields u e ts e' : enc_whole_uri (I := I) E u e = (ts, e') ->
    eobjects e' = eobjects e /\ epackages e' = epackages e.
  Proof. unfold enc_whole_uri. destruct u as [u|]; [apply enc_uri_fields|intros [= <- <-]; auto]. Qed.

  Lemma class_total x e : In x all -> einv e ->
    exists ts e', enc_class (I := I) E (oclass (heap x)) e = Done (ts, e') /\ einv e' /\ eobjects e' = eobjects e.
  Proof.
    intros Hx V. set (c := oclass (heap x)). destruct (g_class _ _ _ _ G x Hx) as [Hin _]. fold c in Hin.
    assert (Hroom : forall cs, NoDup cs -> ~ In c cs ->
        (forall c', In c' cs -> e_cpackage E c' = e_cpackage E c /\ In (e_cname E c', Some c') (e_classifiers E (e_cpackage E c))) ->
        (length cs < length (e_classifiers E (e_cpackage E c)))%nat).
    { intros cs Hnd Hc Hcs.
      assert (H : (length (map Some (c :: cs)) <= length (map snd (e_classifiers E (e_cpackage E c))))%nat).
      { apply NoDup_incl_length.
        - apply FinFun.Injective_map_NoDup; [intros a b; congruence|]. now constructor.
        - intros o Ho. apply in_map_iff in Ho. destruct Ho as (c' & <- & [<-|Hc']); apply in_map_iff.
          + eexists; split; [|exact Hin]. reflexivity.
          + eexists; split; [|exact (proj2 (Hcs c' Hc'))]. reflexivity. }
      rewrite !map_length in H. cbn [length] in H. lia. }
    unfold enc_class, enc_package. cbv zeta.
    destruct (known_package (e_cpackage E c) (epackages e)) as [[i cs]|] eqn:Ek.
    - pose proof (known_package_some _ _ _ _ Ek) as Hi. apply nth_error_In in Hi.
      destruct (ei_classes _ V _ _ Hi) as [Hnd Hcs].
      destruct (index_where (Nat.eqb c) cs) as [j|] eqn:Ej; [eauto|].
      assert (Hc : ~ In c cs).
      { intro H. pose proof (index_where_none _ _ c Ej H) as Hn. cbn in Hn. now rewrite Nat.eqb_refl in Hn. }
      replace (length cs <? length (e_classifiers E (e_cpackage E c)))%nat with true
        by (symmetry; apply Nat.ltb_lt; apply Hroom; auto).
      eexists _, _. split; [reflexivity|]. split; [|reflexivity].
      destruct V as [A B C]. constructor; cbn [eobjects epackages]; auto.
      intros p cs' Hp. apply in_set_nth in Hp. destruct Hp as [[= -> ->]|Hp]; [|auto]. split.
      + apply NoDup_app_iff. split; [exact Hnd|]. split; [constructor; [intros []|constructor]|].
        intros a Ha [<-|[]]. contradiction.
      + intros c' Hc'. apply in_app_or in Hc'. destruct Hc' as [Hc'|[<-|[]]]; auto.
    - destruct (enc_whole_uri E (e_puri E (e_cpackage E c)) e) as [tu e1] eqn:Eu.
      destruct (enc_whole_uri_fields _ _ _ _ Eu) as [H1 H2].
      replace (length (@nil nat) <? length (e_classifiers E (e_cpackage E c)))%nat with true
        by (symmetry; apply Nat.ltb_lt; apply Hroom; [constructor|intros []|intros ? []]).
      eexists _, _. split; [reflexivity|]. split; [|exact H1].
      destruct V as [A B C]. constructor; cbn [eobjects epackages]; rewrite ?H1; auto.
      intros p cs' Hp. apply in_set_nth in Hp. destruct Hp as [[= -> ->]|Hp].
      + split; [constructor; [intros []|constructor]|]. intros c' [<-|[]]. auto.
      + apply in_app_or in Hp. rewrite H2 in Hp. destruct Hp as [Hp|[[= <- <-]|[]]]; [auto|].
        split; [constructor|intros ? []].
  Qed.

  Definition total (enc : estate U -> check -> option nat -> result (list (token I) * estate U)) (n : nat) : Prop :=
    forall e chk o, einv e -> (length all < n + length (eobjects e))%nat -> (forall x, o = Some x -> In x all) ->
      exists ts e', enc e chk o = Done (ts, e') /\ einv e' /\ (length (eobjects e) <= length (eobjects e'))%nat.

  Lemma objects_total enc n chk l e : total enc n -> einv e -> (length all < n + length (eobjects e))%nat ->
    (forall x, In (Some x) l -> In x all) ->
    exists ts e', enc_objects enc chk l e = Done (ts, e') /\ einv e' /\ (length (eobjects e) <= length (eobjects e'))%nat.
  Proof.
    intro T. revert e; induction l as [|o l IH]; intros e V Hn Hl; cbn [enc_objects].
    - exists [], e. auto.
    - destruct (T e chk o V Hn) as (t1 & e1 & -> & V1 & L1); [intros x ->; apply Hl; left; reflexivity|].
      cbn [rbind]. destruct (IH e1 V1) as (t2 & e2 & -> & V2 & L2); [lia|intros x Hx; apply Hl; right; exact Hx|].
      cbn [rbind]. eexists _, _. split; [reflexivity|]. split; [exact V2|lia].
  Qed.

  Lemma value_total enc n f v e : total enc n -> einv e -> (length all < n + length (eobjects e))%nat ->
    fits E f v -> ftransient f = false -> (forall z, In z (refs v) -> In z all) ->
    exists ts e', enc_value E enc f v e = Done (ts, e') /\ einv e' /\ (length (eobjects e) <= length (eobjects e'))%nat.
  Proof.
    intros T V Hn Hfit Htr Hrefs. unfold enc_value. cbv zeta. unfold fits in Hfit.
    assert (Hone : forall chk z, v = VObj (Some z) -> exists ts e', enc e chk (Some z) = Done (ts, e') /\ einv e'
              /\ (length (eobjects e) <= length (eobjects e'))%nat).
    { intros chk z ->. apply T; auto. intros x [= <-]. apply Hrefs. left; reflexivity. }
    assert (Hmany : forall chk l, v = VObjs l -> exists ts e', enc_objects enc chk l e = Done (ts, e') /\ einv e'
              /\ (length (eobjects e) <= length (eobjects e'))%nat).
    { intros chk l ->. apply (objects_total enc n); auto. intros x Hx. apply Hrefs. now apply somes_in. }
    destruct (fkind f); try (rewrite Htr in Hfit; discriminate).
    all: try (destruct v as [| | |[z|]|]; try contradiction; now apply Hone).
    all: try (destruct v as [| | | |l]; try contradiction;
              match goal with |- context[enc_objects _ ?chk ?l _] =>
                destruct (Hmany chk l eq_refl) as (ts & e' & -> & V' & L') end;
              cbn [rbind]; eexists _, _; split; [reflexivity|auto]).
    - destruct p; destruct v as [p'| | | |]; try contradiction; destruct p'; try contradiction;
        cbn [enc_prim]; try (eexists _, _; split; [reflexivity|auto]).
      destruct k; subst; cbn [intkind_eqb]; eexists _, _; split; try reflexivity; auto.
    - destruct v; try contradiction. eexists _, _; split; [reflexivity|auto].
    - destruct v; try contradiction. eexists _, _; split; [reflexivity|auto].
    - destruct v; try contradiction. unfold enc_enum. destruct (index_where _ _); eexists _, _; (split; [reflexivity|]);
        (split; [apply (einv_fields e); auto|cbn; lia]).
  Qed.

  Lemma features_total enc n chk x fs pre e : total enc n -> In x all -> einv e ->
    (length all < n + length (eobjects e))%nat ->
    e_cfeatures E (oclass (heap x)) = pre ++ fs ->
    exists ts e', enc_features E heap enc chk x (length pre) fs e = Done (ts, e') /\ einv e'
      /\ (length (eobjects e) <= length (eobjects e'))%nat.
  Proof.
    intros T Hx. revert pre e; induction fs as [|f fs IH]; intros pre e V Hn Hfs; cbn [enc_features].
    - exists [], e. auto.
    - assert (Hf : nth_error (e_cfeatures E (oclass (heap x))) (length pre) = Some f).
      { rewrite Hfs, nth_error_app2 by lia. now rewrite Nat.sub_diag. }
      assert (Hfs' : e_cfeatures E (oclass (heap x)) = (pre ++ [f]) ++ fs) by (now rewrite <- app_assoc).
      assert (IH' : forall e0, einv e0 -> (length all < n + length (eobjects e0))%nat ->
          exists ts e', enc_features E heap enc chk x (S (length pre)) fs e0 = Done (ts, e') /\ einv e'
            /\ (length (eobjects e0) <= length (eobjects e'))%nat).
      { intros e0 V0 H0. replace (S (length pre)) with (length (pre ++ [f])) by (rewrite app_length; cbn; lia). now apply IH. }
      destruct (if written chk f then ovalue (heap x) (length pre) else None) as [v|] eqn:Ew; [|now apply IH'].
      assert (Hw : written chk f = true /\ ovalue (heap x) (length pre) = Some v) by (destruct (written chk f); [auto|discriminate]).
      destruct Hw as [Hw Hv]. apply written_persistent in Hw.
      destruct (enc_name (oclass (heap x)) (length pre) f e) as [t1 e1] eqn:En.
      assert (H1 : eobjects e1 = eobjects e /\ epackages e1 = epackages e).
      { unfold enc_name in En. destruct (existsb _ _); [injection En as <- <-; auto|].
        destruct (fname f); injection En as <- <-; auto. }
      destruct H1 as [Ho1 Hp1].
      destruct (value_total enc n f v e1 T) as (t2 & e2 & -> & V2 & L2).
      + now apply (einv_fields e).
      + rewrite Ho1. exact Hn.
      + now apply (g_fits _ _ _ _ G x (length pre)).
      + exact (proj1 Hw).
      + intros z Hz. now apply (g_closed _ _ _ _ G x (length pre) v).
      + cbn [rbind]. rewrite Ho1 in L2. destruct (IH' e2 V2) as (t3 & e3 & -> & V3 & L3); [lia|].
        cbn [rbind]. eexists _, _. split; [reflexivity|]. split; [exact V3|lia].
  Qed.

  Lemma object_total n : total (enc_object E heap with_ids n) n.
  Proof.
    induction n as [|n IH]; intros e chk o V Hn Ho.
    - exfalso. pose proof (NoDup_incl_length (ei_nodup _ V) (ei_all _ V)) as H. rewrite map_length in H. lia.
    - cbn [enc_object]. unfold enc_object_body. destruct o as [x|]; [|eauto].
      destruct (index_where _ (eobjects e)) as [i|] eqn:Ei; [eauto|]. apply index_where_fresh in Ei. cbv zeta.
      set (e1 := mkE (eobjects e ++ [(x, chk)]) (epackages e) (enamed e) (euris e) (eenums e)).
      pose proof (Ho x eq_refl) as Hx.
      assert (V1 : einv e1).
      { destruct V as [A B C]. constructor; cbn [e1 eobjects epackages]; auto; rewrite map_app; cbn [map fst].
        - apply NoDup_app_iff. split; [exact A|]. split; [constructor; [intros []|constructor]|].
          intros y Hy [<-|[]]. contradiction.
        - intros y Hy. apply in_app_or in Hy. destruct Hy as [Hy|[<-|[]]]; auto. }
      destruct (class_total x e1 Hx V1) as (tc & e2 & -> & V2 & O2). cbn [rbind].
      assert (L2 : length (eobjects e2) = S (length (eobjects e))) by (rewrite O2; cbn [e1 eobjects]; rewrite app_length; cbn; lia).
      destruct (external E chk (heap x)) as [[u f]|].
      + destruct (enc_uri E u f e2) as [tu e3] eqn:Eu. destruct (enc_uri_fields _ _ _ _ _ Eu) as [H1 H2].
        eexists _, _. split; [reflexivity|]. split; [now apply (einv_fields e2)|rewrite H1; lia].
      + destruct (features_total (enc_object E heap with_ids n) n chk x (e_cfeatures E (oclass (heap x))) [] e2 IH Hx V2) as (tf & e3 & Hf & V3 & L3);
          [lia|reflexivity|].
        cbn [length] in Hf. rewrite Hf. cbn [rbind]. eexists _, _. split; [reflexivity|]. split; [exact V3|lia].
  Qed.

  Lemma resource_total n : (length all < n)%nat -> exists ts, encode_resource E heap with_ids n contents = Done ts.
  Proof.
    intro Hn. unfold encode_resource.
    destruct (objects_total (enc_object E heap with_ids n) n checkContainer (map Some contents) e_start (object_total n)) as (t & e & -> & _ & _).
    - constructor; cbn; [constructor|intros ? []|intros ? ? []].
    - cbn. lia.
    - intros x Hx. apply in_map_iff in Hx. destruct Hx as (y & [= ->] & Hy). now apply (g_contents _ _ _ _ G).
    - cbn [rbind]. eauto.
  Qed.
End P.
