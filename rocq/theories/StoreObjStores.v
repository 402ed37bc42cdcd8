(** Proofs about objects whose store is changed, and about containers. *)
From Verif Require Import Base ListModel ListSpec NotifyModel StoreListModel StoreListSpec StoreListProofs StoreObjModel StoreObjSpec StoreObjProofs.

Section Stores.
  Context {A : Type} (eqb : A -> A -> bool) (nilv : A) (kind : nat -> fkind).
  Implicit Types (w : world A) (r : contents A).

  Lemma list_of_props w f i : list_of eqb kind nilv w f i <-> wprops w f = Some (PList i).
  Proof.
    unfold list_of. cbn [wstep]. unfold wGet. destruct (wprops w f) as [[v|j]|] eqn:Ep.
    - cbn. split; [intros [=]|intros [=]].
    - cbn. split; intros [= ->]; reflexivity.
    - split; [|discriminate]. destruct (kind f) as [[|]|u].
      + cbn. discriminate.
      + destruct (wstore w) as [s|]; [|discriminate]. unfold storeGet. destruct (values w s f); cbn; discriminate.
      + intro H. exfalso. apply (f_equal (option_map (fun x => length (handles (fst x))))) in H. cbn in H.
        rewrite app_length in H. cbn in H. injection H as H. lia.
  Qed.

  Lemma wGet_props w f g : wprops w f <> None -> wprops (fst (wGet kind w g)) f = wprops w f.
  Proof.
    intro H. unfold wGet. destruct (wprops w g) eqn:Eg; [reflexivity|].
    assert (f <> g) by congruence. destruct (kind g) as [[|]|u]; [reflexivity| |cbn; now apply upd_ne].
    destruct (wstore w); [|reflexivity]. cbn. destruct (wcache w); [cbn; now apply upd_ne|reflexivity].
  Qed.
  Lemma onList_props w i o w' x : onList eqb nilv kind w i o = Some (w', x) -> wprops w' = wprops w.
  Proof.
    unfold onList. destruct (nth_error (handles w) i) as [h|]; cbn -[sstep]; [|discriminate].
    destruct (kind (hfeat h)); [discriminate|]. destruct (sstep _ _ _ _ _) as [[[? ?] ?] ?|]; [|discriminate].
    intros [= <- _]. reflexivity.
  Qed.

  (** the list of a feature stays the same exactly for the calls that do not replace it *)
  Lemma list_identity w f u i o w' x : kind f = Many u -> list_of eqb kind nilv w f i ->
    wstep eqb nilv kind w o = Some (w', x) -> (list_of eqb kind nilv w' f i <-> ~ replaces w f o).
  Proof.
    intros Ek L E. rewrite list_of_props in *. destruct o as [g|g v|g|g|c|st|j o|g o]; cbn [wstep replaces] in *.
    - pose proof (wGet_props w f g ltac:(congruence)) as P. destruct (wGet kind w g) as [w1 p]. injection E as <- <-. cbn in P.
      rewrite P. tauto.
    - injection E as <- <-. destruct (Nat.eq_dec g f) as [->|Ne].
      + split; [|intros C; exfalso; auto]. unfold wSet. rewrite Ek. cbn. rewrite upd_eq. destruct v; discriminate.
      + split; [intros _ ?; contradiction|intros _]. unfold wSet.
        destruct (kind g) as [[|]|?], (wstore w); cbn; try (rewrite upd_ne by auto; exact L). destruct (wcache w); [|exact L].
        rewrite upd_ne by auto; exact L.
    - injection E as <- <-. destruct (Nat.eq_dec g f) as [->|Ne].
      + split; [|intros C; exfalso; auto]. unfold wUnset. rewrite Ek. destruct (wstore w); cbn; rewrite upd_eq; discriminate.
      + split; [intros _ ?; contradiction|intros _]. unfold wUnset.
        destruct (kind g) as [[|]|?], (wstore w); cbn; rewrite upd_ne by auto; exact L.
    - injection E as <- <-. tauto.
    - injection E as <- <-. unfold wSetCache. destruct (Bool.eqb (wcache w) c) eqn:Ec.
      + apply Bool.eqb_prop in Ec. split; [intros _ [? _]; congruence|auto].
      + apply Bool.eqb_false_iff in Ec. cbn. destruct (wstore w); [|split; [intros _ [_ ?]; congruence|auto]].
        split; [discriminate|intros C; exfalso; apply C; split; [congruence|discriminate]].
    - injection E as <- <-. unfold wSetEStore. destruct st as [s|].
      + destruct (same_store (wstore w) (Some s)) eqn:Es.
        * unfold same_store in Es. destruct (wstore w) as [t|]; [|discriminate]. apply Nat.eqb_eq in Es. subst.
          split; [intros _ [_ ?]; congruence|auto].
        * cbn. destruct (wcache w); [split; [intros _ [? _]; discriminate|auto]|]. split; [discriminate|].
          intro C. exfalso. apply C. split; [reflexivity|]. intro E0. rewrite E0 in Es. cbn in Es. rewrite Nat.eqb_refl in Es. discriminate.
      + destruct (same_store (wstore w) None); [tauto|]. cbn. rewrite Ek. tauto.
    - destruct (onList eqb nilv kind w j o) as [[w1 y]|] eqn:O; cbn in E; [|discriminate]. injection E as <- <-.
      rewrite (onList_props _ _ _ _ _ O). tauto.
    - pose proof (wGet_props w f g ltac:(congruence)) as P. destruct (wGet kind w g) as [w1 [[v|j]|]]; try discriminate.
      destruct (onList eqb nilv kind w1 j o) as [[w2 y]|] eqn:O; cbn in E; [|discriminate]. injection E as <- <-.
      rewrite (onList_props _ _ _ _ _ O). cbn in P. rewrite P. tauto.
  Qed.

  (** what is shown *)
  Lemma shown_loaded_many w f u i h : kind f = Many u -> wprops w f = Some (PList i) -> nth_error (handles w) i = Some h ->
    hfeat h = f -> shown eqb kind nilv w f = Some (WRes (RList (toArray (view (lists w) h)))).
  Proof.
    intros Ek Hp Hh Hf. unfold shown. rewrite Ek. cbn [wstep]. unfold wGet. rewrite Hp. unfold onList. rewrite Hh.
    cbn -[sstep view]. rewrite Hf, Ek. reflexivity.
  Qed.
  Lemma shown_new_many w f u : kind f = Many u -> wprops w f = None ->
    shown eqb kind nilv w f = Some (WRes (RList (match wstore w with Some s => lists w s f | None => [] end))).
  Proof.
    intros Ek Hp. unfold shown. rewrite Ek. cbn [wstep]. unfold wGet. rewrite Hp, Ek. unfold onList. cbn [handles].
    rewrite nth_error_app2, Nat.sub_diag by lia. cbn -[sstep view createList]. unfold createList at 1 2. cbn [hfeat handle_of].
    rewrite Ek. cbn [sstep sret option_map snd]. unfold createList, view, handle_of, setCache, initialize, toArray, st_toArray.
    destruct (wstore w) as [s|], (wcache w); cbn; try reflexivity; destruct (lists w s f); reflexivity.
  Qed.
  Lemma shown_single w f b : kind f = Single b ->
    shown eqb kind nilv w f = Some (wresult (match wprops w f with
                                             | Some p => Some p
                                             | None => if b then None else match wstore w with Some s => storeGet w s f | None => None end
                                             end)).
  Proof.
    intro Ek. unfold shown. rewrite Ek. cbn [wstep]. unfold wGet. rewrite Ek. destruct (wprops w f); [reflexivity|].
    destruct b; [reflexivity|]. destruct (wstore w); reflexivity.
  Qed.

  Lemma toArray_data (l : nat -> nat -> list A) h c : holds (view l h) c -> toArray (view l h) = c.
  Proof. apply toArray_holds. Qed.

  Lemma detach_exact w s r f : ok kind w s r ->
    (shown eqb kind nilv (wSetEStore kind w None) f = shown eqb kind nilv w f <->
     match kind f with
     | Single true => True
     | Single false => wcache w = false \/ loaded w f \/ nothing kind w s f
     | Many _ => loaded w f \/ nothing kind w s f
     end).
  Proof.
    intros [Hs H]. specialize (H f). unfold nothing, loaded. unfold wSetEStore. rewrite Hs. cbn [same_store].
    destruct (kind f) as [[|]|u] eqn:Ek.
    - rewrite !(shown_single _ f true Ek). cbn. rewrite Ek. tauto.
    - rewrite !(shown_single _ f false Ek). cbn [wprops wstore]. rewrite Ek, Hs. destruct H as [Hv [Hp|(Hc & v & Hp & Hv')]]; rewrite Hp.
      + destruct (wcache w).
        * unfold storeGet. destruct (values w s f); cbn; split; try intros [=]; try (intros [?|[?|?]]; congruence).
          auto.
        * split; [auto|]. intros _. unfold storeGet. destruct (values w s f); reflexivity.
      + rewrite Hc. split; [intros _; right; left; discriminate|reflexivity].
    - destruct H as [Hl [Hp|(i & Hp & h & Hh & Hf & Hst & Hc & Hv)]].
      + rewrite (shown_new_many _ f u Ek) by (cbn; rewrite Ek; exact Hp). rewrite (shown_new_many w f u Ek Hp), Hs. cbn [wstore].
        rewrite Hp. split; [intros [= <-]; auto|intros [?| ->]; [congruence|reflexivity]].
      + rewrite (shown_loaded_many w f u i h Ek Hp Hh Hf).
        erewrite (shown_loaded_many _ f u i h Ek); [|cbn; rewrite Ek; exact Hp|exact Hh|exact Hf]. cbn [lists].
        rewrite Hp. split; [left; discriminate|reflexivity].
  Qed.

  Lemma attach_uncached w t f : wcache w = false -> wstore w <> Some t -> kind f <> Single true ->
    shown eqb kind nilv (wSetEStore kind w (Some t)) f = kept kind w t f.
  Proof.
    intros Hc Hs NT. unfold wSetEStore. destruct (same_store (wstore w) (Some t)) eqn:Es.
    { destruct (wstore w) as [s|]; [|discriminate]. cbn in Es. apply Nat.eqb_eq in Es. congruence. }
    rewrite Hc. unfold kept. destruct (kind f) as [[|]|u] eqn:Ek; [contradiction| |].
    - rewrite (shown_single _ f false Ek). cbn. unfold storeGet. cbn. destruct (values w t f); reflexivity.
    - now rewrite (shown_new_many _ f u Ek).
  Qed.

  Lemma attach_cached w s r t f : ok kind w s r -> wcache w = true -> t <> s -> kind f <> Single true ->
    (loaded w f -> shown eqb kind nilv (wSetEStore kind w (Some t)) f = shown eqb kind nilv w f)
    /\ (~ loaded w f -> shown eqb kind nilv (wSetEStore kind w (Some t)) f = kept kind w t f).
  Proof.
    intros [Hs H] Hc Ht NT. specialize (H f). unfold wSetEStore. rewrite Hs. cbn [same_store].
    destruct (Nat.eqb_spec s t) as [->|_]; [contradiction|]. rewrite Hc. unfold loaded, kept. destruct (kind f) as [[|]|u] eqn:Ek; [contradiction| |].
    - rewrite !(shown_single _ f false Ek). cbn [wprops wstore]. rewrite Hs. destruct H as [Hv [Hp|(_ & v & Hp & Hv')]]; rewrite Hp.
      + split; [congruence|]. intros _. unfold storeGet. cbn. destruct (values w t f); reflexivity.
      + split; [reflexivity|]. intro C. exfalso. apply C. discriminate.
    - destruct H as [Hl [Hp|(i & Hp & h & Hh & Hf & Hst & Hc' & Hv)]]; rewrite Hp.
      + split; [congruence|]. intros _. now rewrite (shown_new_many _ f u Ek).
      + split; [|intro C; exfalso; apply C; discriminate]. intros _.
        rewrite (shown_loaded_many w f u i h Ek Hp Hh Hf).
        set (h' := hSetEStore w h t).
        rewrite (shown_loaded_many _ f u i h' Ek).
        * cbn [lists]. unfold h', hSetEStore. rewrite Hst. cbn [same_store]. destruct (Nat.eqb_spec s t) as [->|_]; [contradiction|].
          destruct Hv as ([Hd|(_ & _ & Hd)] & _ & _); [|cbn in Hd; congruence]. cbn in Hd.
          unfold setEStore, view, handle_of, toArray. cbn. rewrite Hc', Hc, Hd. reflexivity.
        * exact Hp.
        * cbn [handles]. rewrite nth_mapi, Hh. cbn. unfold isProperty. rewrite Hf, Hp, Nat.eqb_refl. reflexivity.
        * unfold h', hSetEStore. destruct (same_store _ _); [exact Hf|exact Hf].
  Qed.
End Stores.

Section Containers.
  Context (classOf : nat -> nat) (allFeatures : nat -> list nat) (opposite : nat -> option nat) (x : nat).
  Context (distinct : forall c, NoDup (allFeatures c)).

  Lemma position_nth l f : NoDup l -> forall n, nth_error l n = Some f -> position l f = Some n.
  Proof.
    induction 1 as [|g l Hg Hl IH]; intros [|n]; cbn; try discriminate.
    - intros [= ->]. now rewrite Nat.eqb_refl.
    - intro H. destruct (Nat.eqb_spec g f) as [->|_]; [|now rewrite (IH _ H)]. exfalso. eapply Hg, nth_error_In, H.
  Qed.
  Lemma featureID c n f : nth_error (allFeatures c) n = Some f -> getFeatureID allFeatures c f = Z.of_nat n.
  Proof. intro H. unfold getFeatureID. now rewrite (position_nth _ _ (distinct c) _ H). Qed.

  (** writing a container *)
  Lemma write_tells p s st : proper classOf allFeatures opposite x p ->
    exists st', setContainerInStore classOf allFeatures opposite x (CO (In (fst p)) (snd p) (Some s) st)
                = Some (CO (In (fst p)) (snd p) (Some s) st')
                /\ tells classOf allFeatures opposite x (st' s) p.
  Proof.
    destruct p as [[c|] id]; cbn [fst snd].
    - intros [f H]. unfold refers in H. cbn [fst snd] in H. unfold setContainerInStore. cbn [cstore ccontainer cfeatureID instore]. unfold BASE. destruct H as [(Hid & Hn & Ho)|(Hid & g & Hn & Ho & Ho')].
      + destruct (Z.leb_spec id (-1)); [|lia]. cbn [obind]. unfold getFeature. destruct (Z.ltb_spec (-1 - id) 0); [lia|]. rewrite Hn.
        eexists. split; [reflexivity|]. rewrite upd_eq. cbn. split; [reflexivity|]. left. auto.
      + destruct (Z.leb_spec id (-1)); [lia|]. unfold getFeature. destruct (Z.ltb_spec id 0); [lia|]. rewrite Hn. cbn. rewrite Ho.
        eexists. split; [reflexivity|]. rewrite upd_eq. cbn. split; [reflexivity|]. right. eauto.
    - intro H. cbn in H. subst. eexists. split; [reflexivity|]. cbn [instore]. rewrite upd_eq. reflexivity.
  Qed.
  Lemma tells_proper st p : tells classOf allFeatures opposite x st p -> proper classOf allFeatures opposite x p.
  Proof. destruct p as [[c|] id], st as [[c'|] [f|]]; cbn; try contradiction; [intros [_ H]; eauto|auto]. Qed.
  (** reading it back *)
  Lemma tells_read s st p id0 : tells classOf allFeatures opposite x (st s) p ->
    cGet classOf allFeatures opposite x (CO Uninitialized id0 (Some s) st) = (CO (In (fst p)) (snd p) (Some s) st, p).
  Proof.
    destruct p as [c id]. unfold cGet, initializeContainer. cbn [ccontainer cstore instore].
    destruct (st s) as [[c'|] [f|]]; destruct c as [c|]; cbn [tells fst snd]; try contradiction.
    - intros [<- H]. assert (E : match opposite f with
                                 | Some g => getFeatureID allFeatures (classOf x) g
                                 | None => BASE - getFeatureID allFeatures (classOf c) f
                                 end = id).
      { destruct H as [(Hid & Hn & Ho)|(Hid & g & Hn & Ho & Ho')].
        - rewrite Ho, (featureID _ _ _ Hn). unfold BASE. lia.
        - rewrite Ho', (featureID _ _ _ Hn). lia. }
      rewrite E. reflexivity.
    - intros ->. reflexivity.
  Qed.

  Definition cinv (known : bool) (o : cobject) (p : option nat * Z) : Prop :=
    match cstore o with
    | Some s => tells classOf allFeatures opposite x (instore o s) p
    | None => if known then proper classOf allFeatures opposite x p else p = (None, -1)
    end
    /\ if known then ccontainer o = In (fst p) /\ cfeatureID o = snd p else ccontainer o = Uninitialized.

  Lemma cinv_proper known o p : cinv known o p -> proper classOf allFeatures opposite x p.
  Proof.
    intros [H _]. destruct (cstore o); [eapply tells_proper, H|]. destruct known; [exact H|]. subst. reflexivity.
  Qed.
  Lemma cinv_get known o p : cinv known o p ->
    exists o', cGet classOf allFeatures opposite x o = (o', p) /\ cinv true o' p.
  Proof.
    intro H. pose proof (cinv_proper _ _ _ H) as P. destruct H as [H1 H2]. destruct known.
    - destruct o as [c id s st]. cbn in H2. destruct H2 as [-> ->]. exists (CO (In (fst p)) (snd p) s st). destruct p. split; [reflexivity|].
      split; [exact H1|cbn; auto].
    - destruct o as [c id [s|] st]; cbn in H1, H2; subst c.
      + exists (CO (In (fst p)) (snd p) (Some s) st). split; [apply tells_read, H1|]. split; [exact H1|cbn; auto].
      + subst p. eexists. split; [reflexivity|]. split; [reflexivity|cbn; auto].
  Qed.

  Lemma crun_ok h : forall known o p, cinv known o p -> careful classOf allFeatures opposite x known h ->
    exists o', crun classOf allFeatures opposite x o h = Some (o', fst (var_reads p h)) /\
      (exists k, cinv k o' (snd (var_reads p h))).
  Proof.
    induction h as [|[c id| |s] h IH]; intros known o p Ho Hh; cbn [crun cstep var_reads] in *.
    - exists o. split; [reflexivity|]. eauto.
    - destruct Hh as [Hp Hh].
      assert (C : exists o1, cSet classOf allFeatures opposite x o c id = Some o1 /\ cinv true o1 (c, id)).
      { unfold cSet. destruct (cstore o) as [s|] eqn:Es.
        - destruct (write_tells (c, id) s (instore o) Hp) as (st' & E & T). cbn [fst snd] in E. rewrite E.
          eexists. split; [reflexivity|]. split; [exact T|cbn; auto].
        - eexists. split; [reflexivity|]. split; [exact Hp|cbn; auto]. }
      destruct C as (o1 & -> & C). destruct (IH _ _ _ C Hh) as (o2 & E & I2). exists o2. cbn [obind]. rewrite E. auto.
    - destruct (cinv_get _ _ _ Ho) as (o1 & -> & C). destruct (IH _ _ _ C Hh) as (o2 & E & I2). exists o2. cbn [obind]. rewrite E.
      destruct (var_reads p h). auto.
    - destruct Hh as [-> Hh].
      assert (C : exists o1, cSetEStore classOf allFeatures opposite x o s = Some o1 /\ cinv true o1 p).
      { pose proof (cinv_proper _ _ _ Ho) as P. unfold cSetEStore. destruct (same_store (cstore o) s) eqn:Es; [eauto|].
        destruct Ho as [H1 [H2 H3]]. rewrite H2, H3. destruct s as [s|].
        - destruct (write_tells p s (instore o) P) as (st' & E & T). rewrite E. eexists. split; [reflexivity|]. split; [exact T|cbn; auto].
        - eexists. split; [reflexivity|]. split; [exact P|cbn; auto]. }
      destruct C as (o1 & -> & C). destruct (IH _ _ _ C Hh) as (o2 & E & I2). exists o2. cbn [obind]. rewrite E. auto.
  Qed.
End Containers.
