From Verif Require Import Base ListProofs XmlNsModel XmlNsSpec.

Lemma str_eqb_spec a b : reflect (a = b) (str_eqb a b).
Proof. unfold str_eqb. destruct (list_eq_dec Nat.eq_dec a b); constructor; assumption. Qed.
Lemma str_eqb_refl a : str_eqb a a = true.
Proof. destruct (str_eqb_spec a a); congruence. Qed.

(** ** Scopes *)

(** sizes recorded in [contexts]: number of live declarations when each scope was opened, outermost first *)
Fixpoint starts (s : scopes) : list Z :=
  match s with
  | [] => []
  | _ :: s' => starts s' ++ [zlen (concat s')]
  end.

Definition Rel (n : xmlns) (s : scopes) : Prop :=
  (exists rest, namespaces n = rev (concat s) ++ rest) /\
  (exists rest, contexts n = starts s ++ rest) /\
  namespacesSize n = zlen (concat s) /\ currentContext n = zlen s - 1.

Lemma starts_len s : zlen (starts s) = zlen s.
Proof. induction s as [|sc s IH]; [reflexivity|]. cbn [starts]. rewrite zlen_app, IH, !zlen_cons. change (zlen (@nil Z)) with 0. lia. Qed.

Lemma zlen_rev {A} (l : list A) : zlen (rev l) = zlen l.
Proof. unfold zlen. now rewrite rev_length. Qed.

(** scanning downwards over the reversed list of declarations *)
Lemma lookup_down_spec fuel l rest f : (length l <= fuel)%nat ->
  lookup_down fuel (rev l ++ rest) (zlen l) f = Some (find f l).
Proof.
  revert fuel rest; induction l as [|x l IH]; intros fuel rest Hf.
  - destruct fuel; reflexivity.
  - destruct fuel as [|fuel]; cbn [length] in Hf; [lia|]. cbn [lookup_down find].
    pose proof (zlen_nonneg l). rewrite zlen_cons. destruct (1 + zlen l >? 0) eqn:E; [|lia].
    replace (1 + zlen l - 1) with (zlen l) by lia. cbn [rev]. rewrite <- app_assoc. cbn [app].
    rewrite zget_app by (now rewrite zlen_rev). cbn [obind]. destruct (f x); [reflexivity|]. apply IH. lia.
Qed.

Lemma declare_scan_spec fuel sc outer rest p u : (length sc <= fuel)%nat ->
  declare_scan fuel (rev (sc ++ outer) ++ rest) (zlen (sc ++ outer)) (zlen outer) p u
  = Some (match replace_prefix p u sc with Some sc' => Some (rev (sc' ++ outer) ++ rest) | None => None end).
Proof.
  revert fuel rest; induction sc as [|[q v] sc IH]; intros fuel rest Hf.
  - cbn [app replace_prefix]. destruct fuel; cbn [declare_scan];
      (destruct (zlen outer >? zlen outer) eqn:E; [lia|]); reflexivity.
  - destruct fuel as [|fuel]; cbn [length] in Hf; [lia|]. cbn [app declare_scan replace_prefix].
    pose proof (zlen_nonneg sc). rewrite zlen_cons.
    destruct (1 + zlen (sc ++ outer) >? zlen outer) eqn:E; [|rewrite zlen_app in E; lia].
    replace (1 + zlen (sc ++ outer) - 1) with (zlen (sc ++ outer)) by lia.
    cbn [rev]. rewrite <- !app_assoc. cbn [app].
    rewrite zget_app by (now rewrite zlen_rev). cbn [obind fst].
    destruct (str_eqb_spec q p) as [->|].
    + rewrite zset_app by (now rewrite zlen_rev). cbn [obind app rev]. rewrite <- !app_assoc. reflexivity.
    + rewrite IH by lia. destruct (replace_prefix p u sc) as [sc'|]; [|reflexivity].
      cbn [app rev]. rewrite <- !app_assoc. reflexivity.
Qed.

Lemma replace_len p u sc sc' : replace_prefix p u sc = Some sc' -> length sc' = length sc.
Proof.
  revert sc'; induction sc as [|[q v] sc IH]; intros sc' H; [discriminate|]. cbn in H.
  destruct (str_eqb q p); [injection H as <-; reflexivity|].
  destruct (replace_prefix p u sc); [|discriminate]. injection H as <-. cbn. f_equal. now apply IH.
Qed.

Definition RelH (n : xmlns) (s : scopes) (high : nat) : Prop :=
  Rel n s /\ length (namespaces n) = high /\ (live s <= high)%nat.

Lemma push_rel n s high : RelH n s high -> exists n', pushContext n = Some n' /\ RelH n' ([] :: s) high.
Proof.
  intros ((Hn & (rest & Hc) & Hs & Hcc) & Hh & Hl). unfold pushContext. rewrite Hcc, Hc.
  replace (zlen s - 1 + 1) with (zlen s) by lia. rewrite zlen_app, starts_len.
  destruct rest as [|z rest].
  - change (zlen (@nil Z)) with 0. destruct (zlen s >=? zlen s + 0) eqn:E; [|lia].
    eexists; split; [reflexivity|]. split; [|split; assumption]. split; [exact Hn|]. split; [|split; [exact Hs|]].
    + exists []. cbn [starts]. now rewrite !app_nil_r, Hs.
    + cbn [currentContext]. rewrite zlen_cons. lia.
  - rewrite zlen_cons. pose proof (zlen_nonneg rest). destruct (zlen s >=? zlen s + (1 + zlen rest)) eqn:E; [lia|].
    rewrite zset_app by (now rewrite starts_len). cbn [obind].
    eexists; split; [reflexivity|]. split; [|split; assumption]. split; [exact Hn|]. split; [|split; [exact Hs|]].
    + exists rest. cbn [starts]. rewrite <- app_assoc, Hs. reflexivity.
    + cbn [currentContext]. rewrite zlen_cons. lia.
Qed.

Lemma pop_rel n sc s high : RelH n (sc :: s) high ->
  exists n', popContext n = Some (n', rev sc) /\ RelH n' s high.
Proof.
  intros (((rn & Hn) & (rest & Hc) & Hs & Hcc) & Hh & Hl). unfold popContext. rewrite Hcc, Hc.
  cbn [starts]. rewrite zlen_cons. replace (1 + zlen s - 1) with (zlen s) by lia. rewrite <- app_assoc. cbn [app].
  rewrite zget_app by (now rewrite starts_len). cbn [obind]. rewrite Hn, Hs. cbn [concat].
  rewrite rev_app_distr. rewrite <- app_assoc.
  rewrite zslice_app by (rewrite ?zlen_rev, ?zlen_app; lia). cbn [obind].
  eexists; split; [reflexivity|]. cbn [namespaces contexts namespacesSize currentContext].
  split; [|split].
  - split; [|split; [|split]].
    + exists (rev sc ++ rn). cbn [namespaces]. reflexivity.
    + exists (zlen (concat s) :: rest). reflexivity.
    + reflexivity.
    + cbn [currentContext]. lia.
  - cbn [namespaces]. rewrite <- Hh, Hn. cbn [concat]. now rewrite rev_app_distr, <- app_assoc.
  - unfold live in *. cbn [concat] in Hl. rewrite app_length in Hl. lia.
Qed.

Lemma declare_found n sc s p u sc' high : RelH n (sc :: s) high -> replace_prefix p u sc = Some sc' ->
  exists n', declarePrefix n p u = Some (n', true) /\ RelH n' (sc' :: s) high.
Proof.
  intros (((rn & Hn) & (rest & Hc) & Hs & Hcc) & Hh & Hl) E. unfold declarePrefix. rewrite Hcc, Hc.
  cbn [starts]. rewrite zlen_cons. replace (1 + zlen s - 1) with (zlen s) by lia. rewrite <- app_assoc. cbn [app].
  rewrite zget_app by (now rewrite starts_len). cbn [obind]. rewrite Hn, Hs. cbn [concat].
  rewrite declare_scan_spec by (rewrite !app_length, rev_length, app_length; lia). rewrite E. cbn [obind].
  apply replace_len in E.
  eexists; split; [reflexivity|]. split; [|split].
  - split; [|split; [|split]].
    + exists rn. reflexivity.
    + exists rest. cbn [contexts starts]. now rewrite <- app_assoc.
    + cbn [namespacesSize concat]. unfold zlen. rewrite !app_length, E. reflexivity.
    + cbn [currentContext]. rewrite zlen_cons. lia.
  - cbn [namespaces]. rewrite <- Hh, Hn. cbn [concat]. rewrite !app_length, !rev_length, !app_length. lia.
  - unfold live in *. cbn [concat] in *. rewrite app_length in *. lia.
Qed.

Lemma declare_new n sc s p u high : RelH n (sc :: s) high -> replace_prefix p u sc = None ->
  live (sc :: s) = high ->
  exists n', declarePrefix n p u = Some (n', false) /\ RelH n' (((p, u) :: sc) :: s) (S high).
Proof.
  intros (((rn & Hn) & (rest & Hc) & Hs & Hcc) & Hh & Hl) E Hlive. unfold declarePrefix. rewrite Hcc, Hc.
  cbn [starts]. rewrite zlen_cons. replace (1 + zlen s - 1) with (zlen s) by lia. rewrite <- app_assoc. cbn [app].
  rewrite zget_app by (now rewrite starts_len). cbn [obind]. rewrite Hn, Hs. cbn [concat].
  rewrite declare_scan_spec by (rewrite !app_length, rev_length, app_length; lia). rewrite E. cbn [obind].
  assert (rn = []) as ->.
  { destruct rn; [reflexivity|]. unfold live in Hlive. rewrite <- Hh, Hn, app_length, rev_length in Hlive. cbn in Hlive. lia. }
  rewrite app_nil_r. rewrite zlen_rev. destruct (zlen (sc ++ concat s) + 1 >? zlen (sc ++ concat s)) eqn:Eg; [|lia].
  eexists; split; [reflexivity|]. split; [|split].
  - split; [|split; [|split]].
    + exists []. cbn [namespaces concat app rev]. now rewrite app_nil_r.
    + exists rest. cbn [contexts starts]. now rewrite <- app_assoc.
    + cbn [namespacesSize concat app]. rewrite zlen_cons. lia.
    + cbn [currentContext]. rewrite zlen_cons. lia.
  - cbn [namespaces]. rewrite app_length, rev_length. unfold live in Hlive. cbn [concat] in Hlive. cbn. lia.
  - unfold live in *. cbn [concat app length] in *. lia.
Qed.

Lemma run_rel ops : forall n s high s', RelH n s high -> never_shrunk s high ops ->
  spec_ns_run s ops = Some s' -> exists n', ns_run n ops = Some n' /\ Rel n' s'.
Proof.
  induction ops as [|o ops IH]; intros n s high s' HR Hns Hsp; cbn [ns_run spec_ns_run never_shrunk] in *.
  - injection Hsp as <-. exists n. split; [reflexivity|apply HR].
  - destruct (spec_ns_step s o) as [s1|] eqn:Es; [|discriminate]. destruct Hns as [Hc Hns].
    assert (exists n1 high1, ns_step n o = Some n1 /\ RelH n1 s1 high1 /\ high1 = Nat.max high (live s1)) as (n1 & h1 & E1 & HR1 & Eh).
    { destruct o as [| |p u]; cbn [spec_ns_step ns_step] in *.
      - injection Es as <-. destruct (push_rel n s high HR) as (n1 & E & HR1). exists n1, high.
        split; [assumption|]. split; [assumption|]. destruct HR as (_ & _ & Hl). unfold live in *. cbn. lia.
      - destruct s as [|sc s]; [discriminate|]. injection Es as <-.
        destruct (pop_rel n sc s high HR) as (n1 & E & HR1). rewrite E. cbn [obind fst]. exists n1, high.
        split; [reflexivity|]. split; [assumption|]. destruct HR1 as (_ & _ & Hl). lia.
      - destruct s as [|sc s]; [discriminate|]. injection Es as <-.
        destruct (replace_prefix p u sc) as [sc'|] eqn:Er.
        + destruct (declare_found n sc s p u sc' high HR Er) as (n1 & E & HR1). rewrite E. cbn [obind fst]. exists n1, high.
          split; [reflexivity|]. split; [assumption|]. destruct HR1 as (_ & _ & Hl). lia.
        + destruct (declare_new n sc s p u high HR Er (Hc eq_refl)) as (n1 & E & HR1). rewrite E. cbn [obind fst].
          exists n1, (S high). split; [reflexivity|]. split; [assumption|].
          destruct HR as (_ & _ & Hl). specialize (Hc eq_refl). unfold live in *. cbn [concat app length] in *. lia. }
    rewrite E1. cbn [obind]. subst h1. eapply IH; eassumption.
Qed.

Lemma rel_lookup n s : Rel n s ->
  (forall p, getURI n p = Some (spec_uri s p)) /\ (forall u, getPrefix n u = Some (spec_prefix s u)).
Proof.
  intros ((rn & Hn) & _ & Hs & _). unfold getURI, getPrefix. rewrite Hn, Hs.
  split; intro x; rewrite lookup_down_spec by (rewrite app_length, rev_length; lia); reflexivity.
Qed.

Lemma scopes_correct ops s : never_shrunk [] 0 ops -> spec_ns_run [] ops = Some s ->
  exists n, ns_run newXMLNamespaces ops = Some n /\
    (forall p, getURI n p = Some (spec_uri s p)) /\ (forall u, getPrefix n u = Some (spec_prefix s u)).
Proof.
  intros Hns Hsp. destruct (run_rel ops newXMLNamespaces [] 0 s) as (n & E & HR); auto.
  - split; [|split; reflexivity]. repeat split; try (now exists []).
  - exists n. split; [assumption|]. now apply rel_lookup.
Qed.

(** declaring a new prefix when exactly one recorded declaration is out of scope always panics *)
Lemma declare_panics n sc s p u x : Rel n (sc :: s) -> namespaces n = rev (concat (sc :: s)) ++ [x] ->
  replace_prefix p u sc = None -> declarePrefix n p u = None.
Proof.
  intros (_ & (rest & Hc) & Hs & Hcc) Hn E. unfold declarePrefix. rewrite Hcc, Hc.
  cbn [starts]. rewrite zlen_cons. replace (1 + zlen s - 1) with (zlen s) by lia. rewrite <- app_assoc. cbn [app].
  rewrite zget_app by (now rewrite starts_len). cbn [obind]. rewrite Hn, Hs. cbn [concat].
  rewrite declare_scan_spec by (rewrite !app_length, rev_length, app_length; lia). rewrite E. cbn [obind].
  rewrite (zlen_app (rev (sc ++ concat s))), zlen_rev. change (zlen [x]) with 1.
  destruct (zlen (sc ++ concat s) + 1 >? zlen (sc ++ concat s) + 1) eqn:Eg; [lia|].
  assert (Z0 : forall (l : list (str * str)) v, zset l (zlen l) v = None).
  { intros l v. unfold zset. destruct ((0 <=? zlen l) && (zlen l <? zlen l)) eqn:Eb; [lia|reflexivity]. }
  replace (zlen (sc ++ concat s) + 1) with (zlen (rev (sc ++ concat s) ++ [x]))
    by (rewrite (zlen_app (rev (sc ++ concat s))), zlen_rev; reflexivity).
  now rewrite Z0.
Qed.

(** ** Prefix allocation *)
Lemma smap_set_same m k v : smap_set m k v k = Some v.
Proof. unfold smap_set. now rewrite str_eqb_refl. Qed.
Lemma smap_set_keep m k v x u : (forall w, m k = Some w -> w = v) -> m x = Some u -> smap_set m k v x = Some u.
Proof. intros H E. unfold smap_set. destruct (str_eqb_spec x k) as [->|]; [|assumption]. f_equal. symmetry; now apply H. Qed.

Definition EncInv (s : xenc) (uri_of : nat -> str) : Prop :=
  prefixes_sound s uri_of /\ (forall u x, In x (uriToPrefixes s u) -> prefixesToURI s x = Some u).

Lemma enc_getPrefix_inv s uri_of p must s' x : EncInv s uri_of -> nsURI p = uri_of (pid p) ->
  encGetPrefix s p must = Done (s', x) ->
  EncInv s' uri_of /\ packages s' (pid p) = Some x /\
  (forall y u, prefixesToURI s y = Some u -> prefixesToURI s' y = Some u) /\
  (forall i y, packages s i = Some y -> packages s' i = Some y).
Proof.
  intros [Hp Hu] Hn. unfold encGetPrefix. destruct (packages s (pid p)) as [y|] eqn:Ep.
  - intros [= <- <-]. repeat split; auto.
  - assert (Hrem : forall y i z, packages s i = Some y ->
        (fun i => if Nat.eqb i (pid p) then Some z else packages s i) i = Some y).
    { intros y i z H. cbn. destruct (Nat.eqb_spec i (pid p)); [congruence|assumption]. }
    destruct (find (fun x => negb must || negb (zlen x =? 0)) (uriToPrefixes s (nsURI p))) as [y|] eqn:Ef.
    + intros [= <- <-]. apply find_some in Ef as [Hin _]. cbn [packages prefixesToURI uriToPrefixes].
      split; [split|split; [|split]].
      * intros i z H. cbn [packages prefixesToURI] in *. destruct (Nat.eqb_spec i (pid p)) as [->|]; [|now apply Hp].
        injection H as <-. rewrite <- Hn. now apply Hu.
      * exact Hu.
      * now rewrite Nat.eqb_refl.
      * auto.
      * intros i z H. now apply Hrem.
    + set (x0 := if (zlen (nsPrefix p) =? 0) && must then underscore else nsPrefix p).
      destruct (match prefixesToURI s x0 with
                | Some u => if str_eqb u (nsURI p) then Done x0 else disambiguate (prefixesToURI s) x0
                | None => Done x0 end) as [x'|] eqn:Ec; [|discriminate].
      intros [= <- <-]. cbn [packages prefixesToURI uriToPrefixes].
      assert (K : forall w, prefixesToURI s x' = Some w -> w = nsURI p).
      { intros w Hw. destruct (prefixesToURI s x0) as [u|] eqn:E0.
        - destruct (str_eqb_spec u (nsURI p)) as [->|Hne].
          + injection Ec as <-. congruence.
          + unfold disambiguate in Ec. destruct (prefixesToURI s (x0 ++ suffix1)) eqn:E1; [discriminate|].
            injection Ec as <-. congruence.
        - injection Ec as <-. congruence. }
      split; [split|split; [|split]].
      * intros i z H. cbn [packages prefixesToURI] in *. destruct (Nat.eqb_spec i (pid p)) as [->|].
        -- injection H as <-. rewrite <- Hn. apply smap_set_same.
        -- apply smap_set_keep; auto.
      * intros u z Hin. cbn [prefixesToURI uriToPrefixes] in *. apply smap_set_keep; auto.
      * now rewrite Nat.eqb_refl.
      * intros y u H. apply smap_set_keep; auto.
      * intros i z H. now apply Hrem.
Qed.

Lemma enc_step_inv xsiURI s uri_of o s' : EncInv s uri_of -> xop_ok xsiURI s uri_of o ->
  xstep xsiURI s o = Done s' -> EncInv s' uri_of.
Proof.
  intros Hi Ho E. destruct o as [p must| |x u pk]; cbn [xstep xop_ok] in *.
  - destruct (encGetPrefix s p must) as [[s1 x]|] eqn:Eg; [|discriminate]. injection E as <-.
    eapply enc_getPrefix_inv in Eg; eauto. tauto.
  - injection E as <-. destruct Hi as [Hp Hu]. split.
    + intros i x H. cbn [declareXsi packages prefixesToURI] in *. apply smap_set_keep; auto.
    + intros u x Hin. cbn [declareXsi uriToPrefixes prefixesToURI] in *.
      destruct (str_eqb_spec u xsiURI) as [->|].
      * destruct Hin as [<-|[]]. apply smap_set_same.
      * apply smap_set_keep; auto.
  - injection E as <-. destruct Hi as [Hp Hu]. destruct Ho as [Ho1 Ho2]. split.
    + intros i y H. cbn [setPrefixEntry packages prefixesToURI] in *. destruct pk as [p|].
      * destruct (Nat.eqb_spec i (pid p)) as [->|].
        -- injection H as <-. destruct Ho2 as [H2 H3]. rewrite H3. apply smap_set_same.
        -- apply smap_set_keep; auto.
      * apply smap_set_keep; auto.
    + intros v y Hin. cbn [setPrefixEntry uriToPrefixes prefixesToURI] in *.
      destruct (str_eqb_spec v u) as [->|].
      * rewrite in_app_iff in Hin. destruct Hin as [Hin|[<-|[]]]; [apply smap_set_keep; auto|apply smap_set_same].
      * apply smap_set_keep; auto.
Qed.

Lemma enc_run_inv xsiURI uri_of ops : forall s s', EncInv s uri_of -> xhistory_ok xsiURI s uri_of ops ->
  xrun xsiURI s ops = Done s' -> EncInv s' uri_of.
Proof.
  induction ops as [|o ops IH]; intros s s' Hi Ho E; cbn [xrun xhistory_ok] in *.
  - now injection E as <-.
  - destruct Ho as [Ho1 Ho2]. destruct (xstep xsiURI s o) as [s1|] eqn:Es; [|discriminate].
    eapply IH; [|exact Ho2|exact E]. eapply enc_step_inv; eassumption.
Qed.

Lemma enc_init uri_of : EncInv newEnc uri_of.
Proof. split; [intros i x H; discriminate|intros u x []]. Qed.

Lemma enc_sound xsiURI uri_of ops s : xhistory_ok xsiURI newEnc uri_of ops -> xrun xsiURI newEnc ops = Done s ->
  prefixes_sound s uri_of.
Proof. intros Ho E. eapply enc_run_inv in E; eauto using enc_init. apply E. Qed.

Lemma sound_no_alias s uri_of i j x : prefixes_sound s uri_of -> packages s i = Some x -> packages s j = Some x ->
  uri_of i = uri_of j.
Proof. intros H H1 H2. apply H in H1, H2. congruence. Qed.

(** the decoder: a prefix declared three times in a document makes the decoder loop forever *)
Lemma mapping_keeps m p u m' x v : startPrefixMapping m p u = Done m' -> m x = Some v -> m' x = Some v.
Proof.
  unfold startPrefixMapping. destruct (m p) eqn:Ep.
  - unfold disambiguate. destruct (m (p ++ suffix1)) eqn:E1; [discriminate|]. intros [= <-] H.
    apply smap_set_keep; [congruence|assumption].
  - intros [= <-] H. apply smap_set_keep; [congruence|assumption].
Qed.
Lemma map_run_keeps ds : forall m m' x v, map_run m ds = Done m' -> m x = Some v -> m' x = Some v.
Proof.
  induction ds as [|[p u] ds IH]; intros m m' x v E H; cbn [map_run] in E.
  - now injection E as <-.
  - destruct (startPrefixMapping m p u) as [m1|] eqn:E1; [|discriminate].
    eapply IH; [exact E|]. eapply mapping_keeps; eassumption.
Qed.
Lemma mapping_sets m p u m' : startPrefixMapping m p u = Done m' ->
  (m' p = Some u /\ m p = None) \/ (m p <> None /\ m' (p ++ suffix1) = Some u).
Proof.
  unfold startPrefixMapping. destruct (m p) eqn:Ep.
  - unfold disambiguate. destruct (m (p ++ suffix1)) eqn:E1; [discriminate|]. intros [= <-].
    right. split; [congruence|]. apply smap_set_same.
  - intros [= <-]. left. split; [apply smap_set_same|reflexivity].
Qed.
Lemma map_run_app a b m : map_run m (a ++ b) = match map_run m a with Done m' => map_run m' b | Diverges => Diverges end.
Proof.
  revert m; induction a as [|[p u] a IH]; intro m; cbn [app map_run]; [reflexivity|].
  destruct (startPrefixMapping m p u); [apply IH|reflexivity].
Qed.
Lemma three_declarations_diverge m d1 d2 d3 d4 p u1 u2 u3 :
  map_run m (d1 ++ (p, u1) :: d2 ++ (p, u2) :: d3 ++ (p, u3) :: d4) = Diverges.
Proof.
  rewrite map_run_app. destruct (map_run m d1) as [m1|]; [|reflexivity]. cbn [map_run].
  destruct (startPrefixMapping m1 p u1) as [m2|] eqn:E1; [|reflexivity].
  assert (H2 : exists v, m2 p = Some v).
  { destruct (mapping_sets _ _ _ _ E1) as [[H _]|[H _]]; [eauto|].
    destruct (m1 p) as [v|] eqn:Ev; [|congruence]. exists v. eapply mapping_keeps; eassumption. }
  destruct H2 as [v2 H2].
  rewrite map_run_app. destruct (map_run m2 d2) as [m3|] eqn:E2; [|reflexivity]. cbn [map_run].
  assert (H3 : m3 p = Some v2) by (eapply map_run_keeps; eassumption).
  destruct (startPrefixMapping m3 p u2) as [m4|] eqn:E3; [|reflexivity].
  assert (H4 : m4 p = Some v2 /\ exists w, m4 (p ++ suffix1) = Some w).
  { split; [eapply mapping_keeps; eassumption|].
    destruct (mapping_sets _ _ _ _ E3) as [[_ H]|[_ H]]; [congruence|eauto]. }
  destruct H4 as [H4 [w H5]].
  rewrite map_run_app. destruct (map_run m4 d3) as [m5|] eqn:E4; [|reflexivity]. cbn [map_run].
  assert (H6 : m5 p = Some v2) by (eapply map_run_keeps; eassumption).
  assert (H7 : m5 (p ++ suffix1) = Some w) by (eapply map_run_keeps; eassumption).
  unfold startPrefixMapping at 1. rewrite H6. unfold disambiguate. rewrite H7. reflexivity.
Qed.

Lemma enc_diverges_iff s p must : encGetPrefix s p must = Diverges <->
  packages s (pid p) = None /\
  find (fun x => negb must || negb (zlen x =? 0)) (uriToPrefixes s (nsURI p)) = None /\
  let x := if (zlen (nsPrefix p) =? 0) && must then underscore else nsPrefix p in
  exists u w, prefixesToURI s x = Some u /\ u <> nsURI p /\ prefixesToURI s (x ++ suffix1) = Some w.
Proof.
  unfold encGetPrefix. cbv zeta. set (x := if (zlen (nsPrefix p) =? 0) && must then underscore else nsPrefix p).
  destruct (packages s (pid p)); [split; [discriminate|intros [H _]; discriminate]|].
  destruct (find _ _); [split; [discriminate|intros (_ & H & _); discriminate]|].
  destruct (prefixesToURI s x) as [u|] eqn:E0.
  - destruct (str_eqb_spec u (nsURI p)) as [->|Hne].
    + split; [discriminate|]. intros (_ & _ & u & w & H & Hn & _). congruence.
    + unfold disambiguate. destruct (prefixesToURI s (x ++ suffix1)) as [w|] eqn:E1.
      * split; [|reflexivity]. intros _. repeat split; auto. exists u, w. auto.
      * split; [discriminate|]. intros (_ & _ & u' & w & _ & _ & H). congruence.
  - split; [discriminate|]. intros (_ & _ & u & w & H & _). discriminate.
Qed.

Lemma spec_run_app a b s : spec_ns_run s (a ++ b) = match spec_ns_run s a with Some s' => spec_ns_run s' b | None => None end.
Proof.
  revert s; induction a as [|o a IH]; intro s; cbn [app spec_ns_run]; [reflexivity|].
  destruct (spec_ns_step s o); [apply IH|reflexivity].
Qed.
Lemma spec_declares d : Forall (fun o => exists p u, o = Declare p u) d -> forall sc s,
  exists sc', spec_ns_run (sc :: s) d = Some (sc' :: s).
Proof.
  induction 1 as [|o d (p & u & ->) _ IH]; intros sc s; cbn [spec_ns_run spec_ns_step]; [eauto|].
  destruct (replace_prefix p u sc); apply IH.
Qed.
Lemma content_restores ops : content ops -> forall s, spec_ns_run s ops = Some s.
Proof.
  induction 1 as [|d c r Hd _ IHc _ IHr]; intro s; [reflexivity|].
  cbn [spec_ns_run spec_ns_step]. rewrite spec_run_app.
  destruct (spec_declares d Hd [] s) as [sc' ->]. rewrite spec_run_app, IHc. cbn [spec_ns_run spec_ns_step]. apply IHr.
Qed.
Lemma never_shrunk_app a b : forall s h, never_shrunk s h (a ++ b) -> never_shrunk s h a.
Proof.
  induction a as [|o a IH]; intros s h H; cbn [app never_shrunk] in *; [exact I|].
  destruct H as [H1 H2]. split; [exact H1|]. destruct (spec_ns_step s o); [|exact I]. eauto.
Qed.
Lemma ns_run_app a b n : ns_run n (a ++ b) = let? n' := ns_run n a in ns_run n' b.
Proof.
  revert n; induction a as [|o a IH]; intro n; cbn [app ns_run]; [reflexivity|].
  destruct (ns_step n o); [apply IH|reflexivity].
Qed.
Lemma leaving_restores a c s : spec_ns_run [] a = Some s -> content c -> never_shrunk [] 0 (a ++ c) ->
  exists n n', ns_run newXMLNamespaces a = Some n /\ ns_run n c = Some n' /\
    (forall p, getURI n' p = getURI n p) /\ (forall u, getPrefix n' u = getPrefix n u).
Proof.
  intros Hs Hc Hn. pose proof (never_shrunk_app _ _ _ _ Hn) as Ha.
  destruct (scopes_correct a s Ha Hs) as (n & E & U & P).
  assert (Hs' : spec_ns_run [] (a ++ c) = Some s) by (rewrite spec_run_app, Hs; now apply content_restores).
  destruct (scopes_correct (a ++ c) s Hn Hs') as (n' & E' & U' & P').
  rewrite ns_run_app, E in E'. cbn [obind] in E'. exists n, n'. repeat split; auto; intros; congruence.
Qed.
