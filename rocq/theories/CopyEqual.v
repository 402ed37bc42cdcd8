(** A copy equals its original. *)
From Verif Require Import Base EqualModel EqualSpec EqualProofs ListModel ListSpec ListProofs GraphModel GraphSpec GraphProofs GraphInv GraphSteps CopyModel CopySpec CopySteps CopyProofs CopyProofs2 CopyProofs3.

Lemma Forall2_refl_in {B} (P : B -> B -> Prop) l : (forall x, In x l -> P x x) -> Forall2 P l l.
Proof. induction l as [|a l IH]; intro H; constructor; [apply H; now left|apply IH; intros; apply H; now right]. Qed.
Lemma Forall2_flip {B C} (P : B -> C -> Prop) l l' : Forall2 P l l' -> Forall2 (fun a b => P b a) l' l.
Proof. induction 1; constructor; auto. Qed.

Lemma Forall2_len {B C} (P : B -> C -> Prop) l l' : Forall2 P l l' -> length l = length l'.
Proof. induction 1; cbn; congruence. Qed.

Section CopyEqual.
  Context (M : metamodel) (W : wf_metamodel M) (X : copyInfo) (alloc : nat -> nat -> obj).
  Context (own : nat -> list feature) (D : declared M X own) (deep : nat -> nat -> bool) (Hdeep : forall p q, deep p q = deep q p).
  Context (s s' : cstate) (H : good M alloc s) (o c : obj) (phi : obj -> option obj) (Ho : ~ is_new alloc s o).
  Context (C : is_copy M X alloc s s' [o] phi) (Q : complete M X own deep s o).
  Notation f_many := (f_many M). Notation f_cont := (f_cont M). Notation f_opp := (f_opp M).
  Notation features := (features M). Notation isContainer := (isContainer M). Notation inside := (inside M X). Notation child := (child M X).
  Notation F := (feats M X own). Notation S0 := (seen M X s). Notation S1 := (seen M X s').
  Notation g := (graph s). Notation g' := (graph s').

  Definition partner (a b : obj) : Prop := phi a = Some b \/ phi b = Some a \/ (a = b /\ phi a = None /\ forall x, phi x <> Some a).

  Lemma dom_inside x d : phi x = Some d -> inside g o x.
  Proof. intro E. destruct (proj1 (k_domain _ _ _ _ _ _ _ C x)) as (r & [<-|[]] & Hx); eauto. Qed.
  Lemma inside_dom x : inside g o x -> exists d, phi x = Some d.
  Proof. intro Hx. apply (k_domain _ _ _ _ _ _ _ C). exists o. split; [now left|assumption]. Qed.
  Lemma dom_old x d : phi x = Some d -> ~ is_new alloc s x.
  Proof.
    intro E. apply dom_inside in E. destruct E as [|p y Hp (f & _ & _ & _ & _ & Hy)]; [assumption|].
    intro K. apply (b_free s y (o_blank M alloc s H y K) _ _ Hy).
  Qed.
  Lemma dom_img x d e : phi x = Some d -> phi d = Some e -> False.
  Proof. intros E1 E2. apply (dom_old _ _ E2). exact (proj1 (k_new _ _ _ _ _ _ _ C _ _ E1)). Qed.

  Lemma get0 x f : In f (features x) -> eGet M g x f = Some (if isContainer f then
            if containerFeatureID g x =? f_id M f then to_list (container g x) else [] else slot g x f).
  Proof. now apply eGet_own. Qed.
  Lemma features_copy x d : phi x = Some d -> features d = features x.
  Proof. intro E. unfold GraphModel.features. now rewrite (proj2 (k_new _ _ _ _ _ _ _ C _ _ E)). Qed.

  (** the references of the copy correspond *)
  Lemma refs_match x d f : phi x = Some d -> In f (own (classOf M x)) -> derived X f = false -> attribute X f = false ->
    exists l l', eGet M g x f = Some l /\ eGet M g' d f = Some l' /\ Forall2 partner l l'.
  Proof.
    intros E Hf Hd Ha. destruct (D x f Hf) as [Hfx Href]. specialize (Href Ha). pose proof (dom_inside x d E) as Hx.
    assert (Hfd : In f (features d)) by (now rewrite (features_copy x d E)).
    rewrite (eGet_own M W g' d f Hfd). rewrite (get0 x f Hfx).
    destruct (isContainer f) eqn:Ec.
    - eexists _, _. split; [reflexivity|]. split; [reflexivity|].
      inversion Hx as [|p y Hp Hy]; subst.
      + pose proof (q_root _ _ _ _ _ _ Q f Hf Hd Ha Ec) as K. rewrite (get0 x f Hfx) in K. rewrite Ec in K. injection K as ->.
        rewrite (k_root _ _ _ _ _ _ _ C x d E) by now left. cbn. destruct (_ =? _); constructor.
      + destruct (inside_dom p Hp) as (pc & Epc). pose proof (k_container _ _ _ _ _ _ _ C x d p E Hy) as Kc. rewrite Kc, Epc.
        destruct Hy as (k & Hk & Hcp & Hka & Hkc & Hin).
        destruct (reachable_ok M W g (o_reach M alloc s H)) as [G _]. destruct (g_cont M g G p k x Hkc Hin) as [-> ->].
        pose proof (k_contents _ _ _ _ _ _ _ C p pc k Epc Hk Hka Hcp Hkc) as Hm.
        assert (Hin' : In d (slot g' pc k)).
        { apply (in_map phi) in Hin. rewrite E, <- Hm in Hin. apply in_map_iff in Hin as (z & Ez & Hz). injection Ez as ->. assumption. }
        destruct (reachable_ok M W g' (o_reach M alloc s' (k_good _ _ _ _ _ _ _ C))) as [G' _]. destruct (g_cont M g' G' pc k d Hkc Hin') as [_ ->].
        destruct (_ =? _); cbn; [|constructor]. constructor; [now left|constructor].
    - eexists _, _. split; [reflexivity|]. split; [reflexivity|].
      destruct (changeable X f) eqn:Ech.
      + assert (Hcp : copied X f = true) by (unfold copied; now rewrite Ech, Hd).
        destruct (GraphModel.f_cont M f) eqn:Efc.
        * pose proof (k_contents _ _ _ _ _ _ _ C x d f E Hfx Ha Hcp Efc) as Hm. revert Hm. generalize (slot g' d f). generalize (slot g x f).
          induction l as [|a l IH]; intros [|b l'] Hm; try discriminate; [constructor|]. cbn in Hm. injection Hm as H1 H2.
          constructor; [left; congruence|now apply IH].
        * rewrite (k_references _ _ _ _ _ _ _ C x d f E Href Hcp Efc Ec).
          assert (Hok : forall y, In y (slot g x f) -> phi y = None -> isBidirectional M f = false /\ partner y y).
          { intros y Hy Ey. assert (Hb : isBidirectional M f = false).
            { destruct (isBidirectional M f) eqn:Eb; [|reflexivity]. destruct (inside_dom y) as (e & Ee); [|congruence].
              exact (q_inside _ _ _ _ _ _ Q x f y Hx Hf Hd Ha Efc Ec Eb Hy). }
            split; [assumption|]. right. right. split; [reflexivity|]. split; [assumption|]. intros z Ez.
            destruct (k_new _ _ _ _ _ _ _ C z y Ez) as [K _]. exact (b_free s y (o_blank M alloc s H y K) _ _ Hy). }
          revert Hok. generalize (slot g x f). induction l as [|y l IH]; intro Hok; [constructor|]. unfold redirected. cbn [flat_map]. fold (redirected M phi f l).
          destruct (phi y) as [y'|] eqn:Ey.
          -- constructor; [now left|]. apply IH. intros z Hz. apply Hok. now right.
          -- destruct (Hok y) as [-> Hp]; [now left|assumption|]. constructor; [assumption|]. apply IH. intros z Hz. apply Hok. now right.
      + pose proof (q_kept _ _ _ _ _ _ Q x f Hx Hf Hd Ech) as K. rewrite Ha in K. specialize (K Ec).
        rewrite K. destruct (slot g' d f) as [|y' l'] eqn:El; [constructor|]. exfalso.
        destruct (k_others _ _ _ _ _ _ _ C x d f y' E) as [(y & _ & Hy)|(_ & _ & _ & Hy)]; [rewrite El; now left| |]; rewrite K in Hy; destruct Hy.
  Qed.
  Lemma attr_match x d f : phi x = Some d -> In f (own (classOf M x)) -> derived X f = false -> attribute X f = true -> attr_value s' d f = attr_value s x f.
  Proof.
    intros E Hf Hd Ha. destruct (D x f Hf) as [Hfx _]. rewrite (k_attr _ _ _ _ _ _ _ C x d f E Hfx). rewrite Ha. cbn [andb].
    destruct (copied X f) eqn:Ec; [reflexivity|]. unfold copied in Ec. rewrite Hd, andb_true_r in Ec.
    pose proof (q_kept _ _ _ _ _ _ Q x f (dom_inside x d E) Hf Hd Ec) as K. rewrite Ha in K. unfold attr_value. now rewrite K.
  Qed.
  (** objects that are not copies did not change *)
  Lemma old_get z f : (forall x, phi x <> Some z) -> eGet M g' z f = eGet M g z f.
  Proof.
    intro Hz. destruct (k_frame _ _ _ _ _ _ _ C z Hz) as (E1 & E2 & E3 & _). unfold eGet. destruct (accessed M z f) as [k|]; [|reflexivity].
    cbn [obind]. now rewrite E1, E2, E3.
  Qed.
  Lemma key_not_copy x d : phi x = Some d -> forall y, phi y <> Some x.
  Proof. intros E y Ey. eapply dom_img; eassumption. Qed.

  Lemma attr_none (t : cstate) x f : (match attrs t x f with Some _ => true | None => false end) = match attr_value t x f with Some _ => true | None => false end.
  Proof. unfold attr_value. destruct (attrs t x f) as [[]|]; reflexivity. Qed.

  Lemma same_pair x d f : well_typed F S0 -> phi x = Some d -> In f (own (classOf M x)) -> derived X f = false -> same_feature deep F S1 partner x d f.
  Proof.
    intros T E Hf Hd. pose proof (key_not_copy x d E) as Hk. destruct (k_frame _ _ _ _ _ _ _ C x Hk) as (_ & _ & _ & _ & Ev).
    specialize (T x f). unfold same_feature. cbn [eIsSet seen eAttr eRefs isAttribute feats isMany isDerived ownFeatures eClass] in *.
    destruct (attribute X f) eqn:Ha.
    - pose proof (attr_match x d f E Hf Hd Ha) as Em. rewrite attr_none in T. rewrite !attr_none, Em, Ev. split; [reflexivity|].
      pose proof (q_values _ _ _ _ _ _ Q x f (dom_inside x d E) Hf) as V.
      destruct (attr_value s x f) as [[|p|l]|] eqn:Eav; intro K; try discriminate; specialize (T eq_refl Hd Hf); cbn; auto.
      split; [assumption|]. unfold same_primitives. now apply Forall2_refl_in.
    - destruct (refs_match x d f E Hf Hd Ha) as (l & l' & E1 & E2 & F2). rewrite (old_get x f Hk). rewrite E1 in T. rewrite E1, E2.
      destruct F2 as [|a b l l' Hab F2]; [split; [reflexivity|discriminate]|]. split; [reflexivity|]. intros _. split; [now constructor|]. auto.
  Qed.
  Lemma same_pair_sym a b f : same_feature deep F S1 partner a b f -> same_feature deep F S1 partner b a f.
  Proof.
    intros (H1 & H2). split; [now symmetry|]. rewrite <- H1. intro K. specialize (H2 K). destruct (isAttribute F f).
    - destruct (eAttr S1 a f), (eAttr S1 b f); cbn in *; try tauto.
      + now rewrite Hdeep.
      + destruct H2 as [H2 H3]. split; [assumption|]. apply Forall2_flip in H3. unfold same_primitives. eapply Forall2_weak; [|exact H3]. intros. cbn in *. now rewrite Hdeep.
    - destruct H2 as [H2 H3]. split.
      + apply Forall2_flip in H2. eapply Forall2_weak; [|exact H2]. intros p q. unfold partner. intros [K1|[K1|(-> & K1)]]; auto.
      + intro Hm. pose proof (Forall2_len _ _ _ H2) as Hl. rewrite <- Hl. auto.
  Qed.

  Lemma partner_matching : well_typed F S0 -> matching deep F S1 partner.
  Proof.
    intro T. constructor.
    - intros a b [K|[K|(-> & K)]]; unfold partner; auto.
    - intros a b e [K|[K|(-> & K1 & K2)]] [J|[J|(E & J1 & J2)]].
      + congruence.
      + exfalso. exact (dom_img _ _ _ J K).
      + congruence.
      + exfalso. exact (dom_img _ _ _ K J).
      + exact (k_one _ _ _ _ _ _ _ C _ _ _ K J).
      + exfalso. exact (J2 _ K).
      + congruence.
      + exfalso. exact (K2 _ J).
      + assumption.
    - intros a b [K|[K|(-> & K)]]; [| |now left]; right; right; cbn [proxyURI seen eClass ownFeatures feats isDerived];
        (split; [reflexivity|split; [reflexivity|]]); destruct (k_new _ _ _ _ _ _ _ C _ _ K) as [_ Ecl]; (split; [congruence|]); intros f Hf Hd.
      + now apply same_pair.
      + apply same_pair_sym. rewrite Ecl in Hf. now apply same_pair.
  Qed.
  Lemma stable (v : aval) (m : bool) : ~ ~ match v with ANil => True | APrim _ => m = false | AList _ => m = true end ->
    match v with ANil => True | APrim _ => m = false | AList _ => m = true end.
  Proof. destruct v, m; try tauto; intro K; exfalso; apply K; intro K2; discriminate. Qed.
  Lemma seen_typed : well_typed F S0 -> well_typed F S1.
  Proof.
    intros T z f. cbn [eIsSet seen eAttr eRefs isAttribute feats isMany isDerived ownFeatures eClass]. intros Hs Hd Hf.
    destruct (attribute X f) eqn:Ha.
    2:{ intro Hm. destruct (D z f Hf) as [Hfz _]. rewrite (eGet_own M W g' z f Hfz) in *.
        destruct (reachable_ok M W g' (o_reach M alloc s' (k_good _ _ _ _ _ _ _ C))) as [G' _].
        destruct (isContainer f).
        - destruct (_ =? _); [|discriminate]. destruct (container g' z); cbn in *; [reflexivity|discriminate].
        - pose proof (g_single M g' G' z f Hm) as Hl. destruct (slot g' z f) as [|a [|b l]]; cbn in *; [discriminate|reflexivity|lia]. }
    rewrite attr_none in Hs. pose proof (fun x => T x f) as T'. cbn [eIsSet seen eAttr eRefs isAttribute feats isMany isDerived ownFeatures eClass] in T'.
    rewrite Ha in T'. apply stable. intro N.
    assert (Hz : forall x, phi x <> Some z).
    { intros x Ex. apply N. destruct (k_new _ _ _ _ _ _ _ C x z Ex) as [_ Ecl]. rewrite Ecl in Hf. rewrite (attr_match x z f Ex Hf Hd Ha) in *.
      specialize (T' x). rewrite attr_none in T'. destruct (attr_value s x f); [|discriminate]. apply T'; auto. }
    apply N. destruct (k_frame _ _ _ _ _ _ _ C z Hz) as (_ & _ & _ & _ & Ev). rewrite Ev in *. specialize (T' z). rewrite attr_none in T'. destruct (attr_value s z f); [|discriminate]. apply T'; auto.
  Qed.
End CopyEqual.
