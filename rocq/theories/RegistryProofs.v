From Verif Require Import Base RegistryModel RegistrySpec.

Section RegistryProofs.
  Context {Pack : Type} (nsURI : Pack -> nat).
  Notation rrun := (rrun nsURI). Notation rstep := (rstep nsURI).
  Notation last_entry := (last_entry nsURI).

  Lemma upd_reg_nth (w : list (preg Pack)) r f n :
    nth_error (upd_reg w r f) n = if Nat.eqb n r then option_map f (nth_error w n) else nth_error w n.
  Proof.
    revert r n; induction w as [|g w IH]; intros r n; cbn.
    - destruct n; cbn; match goal with |- context [if ?b then _ else _] => destruct b end; reflexivity.
    - destruct r, n; cbn; auto.
  Qed.
  Lemma upd_reg_len (w : list (preg Pack)) r f : length (upd_reg w r f) = length w.
  Proof. revert r; induction w as [|g w IH]; intros [|r]; cbn; auto. Qed.

  (** state of the world after a history, described from the history *)
  Definition describes (w : list (preg Pack)) (ops : list (rop Pack)) : Prop :=
    length w = created ops /\
    forall r g, nth_error w r = Some g ->
      (forall k, packages g k = last_entry (rev ops) r k) /\ delegate g = delegate_of ops 0 r.

  Lemma created_app (a b : list (rop Pack)) : created (a ++ b) = (created a + created b)%nat.
  Proof. induction a as [|[] a IH]; cbn; auto. Qed.

  Lemma delegate_of_app (a b : list (rop Pack)) n r :
    delegate_of (a ++ b) n r = if (r <? n + created a)%nat then delegate_of a n r else delegate_of b (n + created a) r.
  Proof.
    revert n; induction a as [|o a IH]; intro n.
    - cbn [app created]. rewrite Nat.add_0_r. destruct (Nat.ltb_spec r n); [|reflexivity].
      cbn. assert (H0 : forall b n, (r < n)%nat -> @delegate_of Pack b n r = None).
      { clear. induction b as [|o b IH]; intros n H; [reflexivity|]. destruct o; cbn; auto.
        destruct (Nat.eqb_spec n r); [lia|]. apply IH. lia. }
      now apply H0.
    - destruct o; cbn [app delegate_of created]; try apply IH.
      rewrite IH. replace (S n + created a)%nat with (n + S (created a))%nat by lia.
      destruct (Nat.eqb_spec n r) as [->|N]; [|reflexivity].
      destruct (Nat.ltb_spec r (r + S (created a))); [reflexivity|lia].
  Qed.

  Lemma last_entry_unborn (ops : list (rop Pack)) n r k : well_formed n ops -> (n + created ops <= r)%nat ->
    last_entry (rev ops) r k = None.
  Proof.
    revert n. induction ops as [|o ops IH] using rev_ind; intros n Hw Hr; [reflexivity|].
    assert (Hw' : well_formed n ops /\ match o with NewRegistry _ => True
        | RegisterPackage r' _ | UnregisterPackage r' _ | PutPackage r' _ _ | PutSupplier r' _ _ | RemoveKey r' _ =>
           (r' < n + created ops)%nat end).
    { clear IH Hr. revert n Hw. induction ops as [|o' ops IH]; intros n Hw.
      - rewrite Nat.add_0_r. destruct o; cbn in *; tauto.
      - destruct o'; cbn [app well_formed created] in *; try (destruct Hw as [H1 H2]; specialize (IH n H2); tauto).
        specialize (IH (S n) Hw). replace (n + S (created ops))%nat with (S n + created ops)%nat by lia. exact IH. }
    rewrite created_app in Hr. rewrite rev_app_distr. cbn [rev app last_entry].
    destruct Hw' as [Hw1 Hw2].
    assert (E : last_entry (rev ops) r k = None) by (eapply IH; [eassumption|lia]).
    destruct o; cbn [RegistrySpec.last_entry]; auto;
      match goal with |- context [Nat.eqb ?a r] => destruct (Nat.eqb_spec a r); [lia|] end; exact E.
  Qed.

  Lemma wf_app (a b : list (rop Pack)) n : well_formed n (a ++ b) -> well_formed n a /\ well_formed (n + created a) b.
  Proof.
    revert n; induction a as [|o a IH]; intros n H; cbn [app created] in *.
    - rewrite Nat.add_0_r. cbn. auto.
    - destruct o; cbn [well_formed] in *; try (destruct H as [H1 H2]; apply IH in H2; tauto).
      apply IH in H. replace (n + S (created a))%nat with (S n + created a)%nat by lia. exact H.
  Qed.

  Lemma describes_run ops : well_formed 0 ops -> describes (rrun [] ops) ops.
  Proof.
    induction ops as [|o ops IH] using rev_ind; intro Hw.
    - split; [reflexivity|]. intros [|r] g H; discriminate.
    - apply wf_app in Hw as [Hw Ho]. specialize (IH Hw). destruct IH as [Hl Hg].
      unfold RegistryModel.rrun. rewrite fold_left_app. cbn [fold_left]. fold (rrun [] ops).
      set (w := rrun [] ops) in *. cbn [Nat.add] in Ho.
      assert (Hput : forall r kk e, (r < created ops)%nat ->
         (forall r' k, last_entry (rev (ops ++ [o])) r' k =
             if Nat.eqb r r' && Nat.eqb kk k then e else last_entry (rev ops) r' k) ->
         created (ops ++ [o]) = created ops ->
         describes (upd_reg w r (set_key kk e)) (ops ++ [o])).
      { intros r kk e Hr Hle Hc. split; [rewrite upd_reg_len; congruence|].
        intros r' g. rewrite upd_reg_nth. intro H.
        assert (Hlt : (r' < created ops)%nat).
        { rewrite <- Hl. apply nth_error_Some. destruct (Nat.eqb r' r); [|congruence].
          destruct (nth_error w r'); [discriminate|discriminate H]. }
        split.
        - intro k. rewrite Hle. destruct (Nat.eqb_spec r' r) as [->|N].
          + destruct (nth_error w r) as [g0|] eqn:E; [|discriminate]. injection H as <-. cbn [set_key packages].
            rewrite Nat.eqb_refl. cbn [andb]. rewrite (Nat.eqb_sym k kk).
            destruct (Nat.eqb kk k); [reflexivity|]. now apply (proj1 (Hg r g0 E)).
          + destruct (Nat.eqb_spec r r'); [congruence|]. cbn [andb]. now apply (proj1 (Hg r' g H)).
        - rewrite delegate_of_app. cbn [Nat.add]. destruct (Nat.ltb_spec r' (created ops)); [|lia].
          destruct (Nat.eqb_spec r' r) as [->|N].
          + destruct (nth_error w r) as [g0|] eqn:E; [|discriminate]. injection H as <-. cbn [set_key delegate].
            now apply (Hg r g0 E).
          + now apply (Hg r' g H). }
      destruct o; cbn [RegistryModel.rstep well_formed] in *.
      + split.
        * rewrite app_length, created_app, Hl. reflexivity.
        * intros r g. rewrite nth_error_app_if. rewrite Hl. destruct (Nat.ltb_spec r (created ops)) as [Hlt|Hge].
          -- intro H. destruct (Hg r g H) as [H1 H2]. split.
             ++ intro k. rewrite rev_app_distr. cbn. apply H1.
             ++ rewrite delegate_of_app. cbn [Nat.add]. destruct (Nat.ltb_spec r (created ops)); [assumption|lia].
          -- destruct (r - created ops)%nat as [|m] eqn:Em; [|destruct m; discriminate].
             assert (r = created ops) as -> by lia. intros [= <-]. cbn [packages delegate]. split.
             ++ intro k. rewrite rev_app_distr. cbn. symmetry. eapply last_entry_unborn; [eassumption|cbn; lia].
             ++ rewrite delegate_of_app. cbn [Nat.add]. destruct (Nat.ltb_spec (created ops) (created ops)); [lia|].
                cbn. rewrite Nat.eqb_refl. destruct d; reflexivity.
      + apply Hput; [tauto| |rewrite created_app; cbn; lia]. intros. rewrite rev_app_distr. reflexivity.
      + apply Hput; [tauto| |rewrite created_app; cbn; lia]. intros. rewrite rev_app_distr. reflexivity.
      + apply Hput; [tauto| |rewrite created_app; cbn; lia]. intros. rewrite rev_app_distr. reflexivity.
      + apply Hput; [tauto| |rewrite created_app; cbn; lia]. intros. rewrite rev_app_distr. reflexivity.
      + apply Hput; [tauto| |rewrite created_app; cbn; lia]. intros. rewrite rev_app_distr. reflexivity.
  Qed.

  Lemma delegate_lt (ops : list (rop Pack)) n r d : delegate_of ops n r = Some d -> (d < r)%nat.
  Proof.
    revert n; induction ops as [|o ops IH]; intros n H; [discriminate|]. destruct o as [d0|?|?|?|?|?]; cbn [delegate_of] in H; try (eapply IH; eassumption).
    destruct (Nat.eqb_spec n r) as [E|]; [subst r|eapply IH; eassumption].
    destruct d0 as [m|]; [|discriminate]. destruct (Nat.ltb_spec m n); [|discriminate]. congruence.
  Qed.

  Lemma lookup_finds ops fuel r k : well_formed 0 ops -> (r < created ops)%nat -> (r < fuel)%nat ->
    exists x, GetPackage fuel (rrun [] ops) r k = Some x /\ finds nsURI ops r k x.
  Proof.
    intros Hw. destruct (describes_run ops Hw) as [Hl Hg]. revert r.
    induction fuel as [|fuel IH]; intros r Hr Hf; [lia|]. cbn [GetPackage].
    destruct (nth_error_lt_some (rrun [] ops) r) as [g Eg]; [lia|]. rewrite Eg.
    destruct (Hg r g Eg) as [Hp Hd].
    assert (E : doGetPackage g k = denotes (last_entry (rev ops) r k)).
    { unfold doGetPackage. rewrite Hp. destruct (last_entry (rev ops) r k) as [[]|]; reflexivity. }
    rewrite E, Hd. destruct (denotes (last_entry (rev ops) r k)) eqn:El.
    - eexists; split; [reflexivity|]. now constructor.
    - destruct (delegate_of ops 0 r) as [d|] eqn:Ed.
      + pose proof (delegate_lt _ _ _ _ Ed). destruct (IH d) as (x & Ex & Fx); [lia..|].
        exists x. split; [assumption|]. now apply (finds_delegate nsURI ops r k d).
      + eexists; split; [reflexivity|]. now apply finds_none.
  Qed.

  Lemma finds_fun ops r k x y : finds nsURI ops r k x -> finds nsURI ops r k y -> x = y.
  Proof.
    intro H. revert y; induction H; intros y Hy; inversion Hy; subst; try congruence.
    - assert (d = d0) by congruence. subst. auto.
  Qed.

  Lemma factory_of_package {Factory} (factory : Pack -> Factory) fuel w r k :
    GetFactory factory fuel w r k = option_map (option_map factory) (GetPackage fuel w r k).
  Proof.
    revert r; induction fuel as [|fuel IH]; intro r; [reflexivity|]. cbn [GetFactory GetPackage].
    destruct (nth_error w r) as [g|]; [|reflexivity].
    destruct (doGetPackage g k); [reflexivity|]. destruct (delegate g); [apply IH|reflexivity].
  Qed.

  (** a call on registry [c] changes lookups only in registries that reach [c] *)
  Definition target_of (o : rop Pack) : option nat :=
    match o with
    | NewRegistry _ => None
    | RegisterPackage r _ | UnregisterPackage r _ | PutPackage r _ _ | PutSupplier r _ _ | RemoveKey r _ => Some r
    end.

  Lemma delegate_stable ops (o : rop Pack) c r : target_of o = Some c -> delegate_of (ops ++ [o]) 0 r = delegate_of ops 0 r.
  Proof.
    intro H. rewrite delegate_of_app. cbn [Nat.add]. destruct (Nat.ltb_spec r (created ops)) as [|Hge]; [reflexivity|].
    transitivity (@None nat); [destruct o; cbn in *; auto; discriminate|].
    symmetry. assert (G : forall (a : list (rop Pack)) n, (n + created a <= r)%nat -> delegate_of a n r = None).
    { induction a as [|o' a IH]; intros n Hn; [reflexivity|]. destruct o'; cbn in *; try (apply IH; lia).
      destruct (Nat.eqb_spec n r); [lia|]. apply IH. lia. }
    apply G. cbn. lia.
  Qed.

  Lemma entry_stable ops o c r k : target_of o = Some c -> r <> c ->
    last_entry (rev (ops ++ [o])) r k = last_entry (rev ops) r k.
  Proof.
    intros H N. rewrite rev_app_distr. cbn [rev app].
    destruct o; cbn in H; try discriminate; injection H as ->; cbn [RegistrySpec.last_entry];
      (destruct (Nat.eqb_spec c r); [congruence|]); reflexivity.
  Qed.

  Lemma finds_stable ops o c r k x : target_of o = Some c -> ~ reaches ops r c ->
    finds nsURI ops r k x -> finds nsURI (ops ++ [o]) r k x.
  Proof.
    intros Ht Hr H. induction H as [r k p H|r k d x H1 H2 H3 IH|r k H1 H2].
    - apply finds_local. rewrite (entry_stable _ _ c); auto. intros ->. apply Hr. constructor.
    - apply (finds_delegate _ _ _ _ d).
      + rewrite (entry_stable _ _ c); auto. intros ->. apply Hr. constructor.
      + rewrite (delegate_stable _ _ c); auto.
      + apply IH. intro. apply Hr. econstructor; eauto.
    - apply finds_none.
      + rewrite (entry_stable _ _ c); auto. intros ->. apply Hr. constructor.
      + rewrite (delegate_stable _ _ c); auto.
  Qed.

  Lemma lookup_isolated ops o c r k fuel : well_formed 0 (ops ++ [o]) -> target_of o = Some c ->
    ~ reaches ops r c -> (r < created ops)%nat -> (r < fuel)%nat ->
    GetPackage fuel (rrun [] (ops ++ [o])) r k = GetPackage fuel (rrun [] ops) r k.
  Proof.
    intros Hw Ht Hr Hc Hf. destruct (wf_app _ _ _ Hw) as [Hw1 _].
    destruct (lookup_finds ops fuel r k Hw1 Hc Hf) as (x & -> & Fx).
    destruct (lookup_finds (ops ++ [o]) fuel r k Hw) as (y & -> & Fy); [rewrite created_app; lia|assumption|].
    f_equal. eapply finds_fun; [exact Fy|]. eapply finds_stable; eassumption.
  Qed.
End RegistryProofs.

Lemma extension_spec p e : extension p = Some e <-> is_extension p e.
Proof.
  assert (N : forall p, extension p = None <-> ~ In dot p).
  { induction p0 as [|c p0 IH]; cbn; [tauto|]. destruct (extension p0) eqn:E.
    - split; [discriminate|]. intro H. destruct IH as [_ IH]. assert (Some s = None) by (apply IH; tauto). discriminate.
    - destruct (Nat.eqb_spec c dot) as [->|Hc].
      + split; [discriminate|]. intro H. exfalso. apply H. auto.
      + split; [|reflexivity]. intros _ [H|H]; [congruence|]. now apply IH in H. }
  revert e. induction p as [|c p IH]; intro e; cbn.
  - split; [discriminate|]. intros (q & H & _). destruct q; discriminate.
  - destruct (extension p) as [e'|] eqn:E.
    + split.
      * intros [= <-]. destruct (proj1 (IH e') eq_refl) as (q & -> & Hn). exists (c :: q). auto.
      * intros (q & H & Hn). destruct q as [|c' q].
        -- injection H as -> ->. apply N in Hn. congruence.
        -- injection H as -> ->. apply IH. exists q. auto.
    + destruct (Nat.eqb_spec c dot) as [->|Hc].
      * split.
        -- intros [= <-]. exists []. split; [reflexivity|]. now apply N.
        -- intros (q & H & Hn). destruct q as [|c' q].
           ++ now injection H as ->.
           ++ injection H as _ ->. apply N in E. exfalso. apply E. rewrite in_app_iff. cbn. auto.
      * split; [discriminate|]. intros (q & H & Hn). destruct q as [|c' q].
        -- injection H as -> _. congruence.
        -- injection H as _ ->. apply N in E. exfalso. apply E. rewrite in_app_iff. cbn. auto.
Qed.

Lemma codec_first {Codec} (pre : list (creg Codec)) r post scheme path c :
  (forall q, In q pre -> applicable q scheme path = None) -> applicable r scheme path = Some c ->
  GetCodec (pre ++ r :: post) scheme path = c.
Proof.
  intros Hp Hr. induction pre as [|q pre IH]; cbn [app GetCodec].
  - unfold applicable in Hr. destruct (protocolToCodec r scheme); [congruence|].
    destruct (match extension path with Some e => extensionToCodec r e | None => None end); [congruence|].
    destruct (extensionToCodec r DEFAULT_EXTENSION); congruence.
  - specialize (IH (fun q' H => Hp q' (or_intror H))).
    specialize (Hp q (or_introl eq_refl)). unfold applicable in Hp.
    destruct (protocolToCodec q scheme); [discriminate|].
    destruct (match extension path with Some e => extensionToCodec q e | None => None end); [discriminate|].
    now rewrite Hp.
Qed.
Lemma codec_none {Codec} (chain : list (creg Codec)) scheme path :
  (forall q, In q chain -> applicable q scheme path = None) -> GetCodec chain scheme path = None.
Proof.
  induction chain as [|q pre IH]; intro Hp; cbn [GetCodec]; [reflexivity|].
  specialize (IH (fun q' H => Hp q' (or_intror H))).
  specialize (Hp q (or_introl eq_refl)). unfold applicable in Hp.
  destruct (protocolToCodec q scheme); [discriminate|].
  destruct (match extension path with Some e => extensionToCodec q e | None => None end); [discriminate|].
  now rewrite Hp.
Qed.
