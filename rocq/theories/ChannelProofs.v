From Verif Require Import Base ChannelModel ChannelSpec.

Section Chan.
Context {T : Type}.
Implicit Types (c : chan T) (tr : list (label T)).

Definition Inv tr c : Prop :=
  sent tr = received tr ++ queue (mgr c) /\
  (in_nil (mgr c) = true -> in_closed c = true) /\
  (out_closed c = returned (mgr c)) /\
  (In LCloseOut tr <-> out_closed c = true) /\
  (out_closed c = true -> queue (mgr c) = [] /\ in_closed c = true) /\
  (in_closed c = true <-> exists g, In (LCloseIn g) tr).

Lemma sent_snoc tr l : sent (tr ++ [l]) = sent tr ++ match l with LSend v => [v] | _ => [] end.
Proof. unfold sent. rewrite flat_map_app. cbn. now rewrite app_nil_r. Qed.
Lemma recv_snoc tr l : received (tr ++ [l]) = received tr ++ match l with LRecv v => [v] | _ => [] end.
Proof. unfold received. rewrite flat_map_app. cbn. now rewrite app_nil_r. Qed.

Lemma in_snoc {A} (a b : list A) x y : In x (a ++ [y]) <-> In x a \/ y = x.
Proof. rewrite in_app_iff. cbn. tauto. Qed.

Lemma closein_snoc tr l : (exists g, In (LCloseIn g) (tr ++ [l])) <-> (exists g, In (LCloseIn g) tr) \/ (exists g, l = LCloseIn g).
Proof.
  split.
  - intros [g H]. apply in_app_iff in H as [H|[H|[]]]; eauto.
  - intros [[g H]|[g ->]]; exists g; apply in_app_iff; cbn; auto.
Qed.
Lemma closeout_snoc tr l : In LCloseOut (tr ++ [l]) <-> In LCloseOut tr \/ l = LCloseOut.
Proof. rewrite in_app_iff. cbn. tauto. Qed.

Lemma inv_step tr c l c' : Inv tr c -> label_ok c l -> step c l = Some c' -> Inv (tr ++ [l]) c'.
Proof.
  intros (H1 & H2 & H3 & H4 & H5 & H6) Hok Hs. unfold Inv. rewrite sent_snoc, recv_snoc, closeout_snoc, closein_snoc.
  destruct c as [[q inn ret] inc outc cl cs pan]. cbn [mgr queue in_nil returned in_closed out_closed closed closers panicked] in *.
  unfold step, manage_offer in Hs; cbn [mgr queue in_nil returned in_closed out_closed closed closers panicked] in Hs.
  destruct l; cbn [label_ok mgr queue] in *.
  - destruct ret; [discriminate|]. destruct inc; [discriminate|]. cbn in Hs.
    destruct inn; [now specialize (H2 eq_refl)|].
    assert (Hs' : c' = set_mgr (mkC (mkM q false false) false outc cl cs pan) (mkM (q ++ [v]) false false)).
    { destruct q; congruence. } subst c'. cbn.
    rewrite H1, !app_nil_r, <- app_assoc. repeat split; try tauto; intros; try congruence.
    + destruct H as [H|H]; [tauto|discriminate].
    + destruct H as [H|[g H]]; [tauto|discriminate].
  - destruct ret; [discriminate|]. destruct Hok as [rest ->].
    assert (c' = set_mgr (mkC (mkM (v :: rest) inn false) inc outc cl cs pan) (mkM rest inn false)).
    { destruct inn; cbn in Hs; congruence. } subst c'. cbn.
    rewrite H1, app_nil_r, <- app_assoc. cbn. repeat split; try tauto; intros; try congruence.
    + destruct H as [H|H]; [tauto|discriminate].
    + destruct H as [H|[g H]]; [tauto|discriminate].
  - destruct ret; [discriminate|]. destruct inc; [|discriminate]. cbn in Hs.
    destruct q as [|f q]; [destruct inn; discriminate|]. destruct inn; [discriminate|]. injection Hs as <-. cbn.
    rewrite !app_nil_r. repeat split; try tauto; intros; try congruence.
    + destruct H as [H|H]; [tauto|discriminate].
  - destruct ret; [discriminate|].
    assert (q = [] /\ inc = true /\ c' = close_out (mkC (mkM q inn false) inc outc cl cs pan)) as (-> & -> & ->).
    { destruct q as [|f q]; [|destruct inn; discriminate]. destruct inn.
      - rewrite (H2 eq_refl) in *. injection Hs as <-. auto.
      - destruct inc; [|discriminate]. injection Hs as <-. auto. }
    cbn. rewrite !app_nil_r in *. rewrite H1. repeat split; try tauto; intros; try congruence.
  - destruct (cs g); try discriminate. injection Hs as <-. cbn. rewrite !app_nil_r. repeat split; try tauto; intros; try congruence.
    + destruct H as [H|H]; [tauto|discriminate].
    + destruct H as [H|[g0 H]]; [tauto|discriminate].
  - destruct (cs g); try discriminate. injection Hs as <-. cbn. rewrite !app_nil_r. repeat split; try tauto; intros; try congruence.
    + destruct H as [H|H]; [tauto|discriminate].
    + destruct H as [H|[g0 H]]; [tauto|discriminate].
  - destruct (cs g); try discriminate. injection Hs as <-. cbn. rewrite !app_nil_r. repeat split; try tauto; intros; try congruence.
    + destruct H as [H|H]; [tauto|discriminate].
    + eauto.
  - destruct inc; [|discriminate]. injection Hs as <-. cbn. rewrite !app_nil_r. repeat split; try tauto; intros; try congruence.
    + destruct H as [H|H]; [tauto|discriminate].
Qed.

Lemma inv_run tr c : run newInfiniteChannel tr c -> Inv tr c.
Proof.
  remember newInfiniteChannel as c0 eqn:E. induction 1 as [|c tr c' l c'' Hr IH Hok Hs]; subst.
  - unfold Inv. cbn. repeat split; try discriminate; try tauto. intros [g []].
  - eapply inv_step; eauto.
Qed.

Lemma fifo tr c : run newInfiniteChannel tr c -> prefix (received tr) (sent tr).
Proof. intro H. apply inv_run in H. destruct H as [H _]. eexists. exact H. Qed.

Lemma closed_complete tr c : run newInfiniteChannel tr c -> In LCloseOut tr ->
  received tr = sent tr /\ exists g, In (LCloseIn g) tr.
Proof.
  intros H Hin. apply inv_run in H. destruct H as (H1 & _ & _ & H4 & H5 & H6).
  apply H4 in Hin. destruct (H5 Hin) as [Hq Hc]. rewrite Hq, app_nil_r in H1. split; [congruence|]. now apply H6.
Qed.

Lemma send_enabled tr c v : run newInfiniteChannel tr c -> in_closed c = false ->
  exists c', label_ok c (LSend v) /\ step c (LSend v) = Some c'.
Proof.
  intros H Hc. apply inv_run in H. destruct H as (H1 & H2 & H3 & H4 & H5 & H6).
  destruct c as [[q inn ret] inc outc cl cs pan]. cbn in *. subst inc.
  destruct ret; [subst outc; destruct (H5 eq_refl); discriminate|].
  destruct inn; [now specialize (H2 eq_refl)|]. destruct q; eexists; split; cbn; eauto.
Qed.

(** drain: with in closed, the manager only makes progress towards closing out *)
Definition drain_measure c : nat := (2 * length (queue (mgr c)) + (if in_nil (mgr c) then 0 else 1) + (if returned (mgr c) then 0 else 2))%nat.
Definition drain_label (l : label T) : Prop := match l with LRecv _ | LTau | LCloseOut => True | _ => False end.

Lemma drain_enabled tr c : run newInfiniteChannel tr c -> in_closed c = true -> out_closed c = false ->
  exists l c', drain_label l /\ label_ok c l /\ step c l = Some c'.
Proof.
  intros H Hc Ho. apply inv_run in H. destruct H as (H1 & H2 & H3 & H4 & H5 & H6).
  destruct c as [[q inn ret] inc outc cl cs pan]. cbn in *. subst inc outc ret.
  destruct q as [|f q].
  - exists LCloseOut. destruct inn; eexists; cbn; auto.
  - exists (LRecv f). eexists. cbn. split; [exact I|]. split; [eauto|]. destruct inn; reflexivity.
Qed.
Lemma drain_decreases c l c' : drain_label l -> label_ok c l -> step c l = Some c' -> (drain_measure c' < drain_measure c)%nat.
Proof.
  intros Hl Hok Hs. destruct c as [[q inn ret] inc outc cl cs pan]. unfold drain_measure.
  destruct l; try contradiction; unfold step, manage_offer in Hs; cbn in *.
  - destruct ret; [discriminate|]. destruct Hok as [rest ->]. destruct inn; injection Hs as <-; cbn; lia.
  - destruct ret; [discriminate|]. destruct inc; [|discriminate]. destruct q; destruct inn; try discriminate.
    injection Hs as <-. cbn. lia.
  - destruct ret; [discriminate|]. destruct q; destruct inn; try discriminate; [|destruct inc; [|discriminate]];
      injection Hs as <-; cbn; lia.
Qed.

Lemma in_closed_stable c l c' : step c l = Some c' -> in_closed c = true -> in_closed c' = true.
Proof.
  intros Hs Hc. destruct c as [[q inn ret] inc outc cl cs pan]; cbn in Hc; subst inc. destruct l; unfold step, manage_offer in Hs; cbn in Hs.
  - destruct ret; discriminate.
  - destruct ret; [discriminate|]. destruct q; destruct inn; try discriminate; injection Hs as <-; reflexivity.
  - destruct ret; [discriminate|]. destruct q; destruct inn; try discriminate; injection Hs as <-; reflexivity.
  - destruct ret; [discriminate|]. destruct q; destruct inn; try discriminate; injection Hs as <-; reflexivity.
  - destruct (cs g); try discriminate; injection Hs as <-; reflexivity.
  - destruct (cs g); try discriminate; injection Hs as <-; reflexivity.
  - destruct (cs g); try discriminate; injection Hs as <-; reflexivity.
  - injection Hs as <-; reflexivity.
Qed.

(** a run of the drain phase: any run using drain labels only is short, and a maximal one ends closed *)
Lemma run_app_snoc c tr c' l c'' : run c tr c' -> label_ok c' l -> step c' l = Some c'' -> run c (tr ++ [l]) c''.
Proof. apply run_snoc. Qed.

Lemma drains n : forall tr c, (drain_measure c <= n)%nat -> run newInfiniteChannel tr c -> in_closed c = true ->
  exists tr' c', Forall drain_label tr' /\ run newInfiniteChannel (tr ++ tr') c' /\ out_closed c' = true.
Proof.
  induction n as [|n IH]; intros tr c Hm Hr Hc.
  - destruct (out_closed c) eqn:Ho.
    + exists [], c. rewrite app_nil_r. auto.
    + destruct (drain_enabled tr c Hr Hc Ho) as (l & c' & Hl & Hok & Hs).
      pose proof (drain_decreases _ _ _ Hl Hok Hs). lia.
  - destruct (out_closed c) eqn:Ho.
    + exists [], c. rewrite app_nil_r. auto.
    + destruct (drain_enabled tr c Hr Hc Ho) as (l & c' & Hl & Hok & Hs).
      pose proof (drain_decreases _ _ _ Hl Hok Hs).
      destruct (IH (tr ++ [l]) c') as (tr' & c2 & HF & Hr2 & Ho2).
      * lia.
      * econstructor; eassumption.
      * eapply in_closed_stable; eassumption.
      * exists (l :: tr'), c2. rewrite <- app_assoc in Hr2. cbn in Hr2. auto.
Qed.

(** ** Close *)
Definition CInv c : Prop :=
  panicked c = false /\
  (in_closed c = true -> closed c = true /\ forall g, ~ inside c g) /\
  (forall g g', inside c g -> inside c g' -> g = g') /\
  (forall g, closers c g = C1 -> closed c = false /\ in_closed c = false) /\
  (forall g, closers c g = C2 -> in_closed c = false /\ closed c = true).

Lemma cinv_step c l c' : CInv c -> step c l = Some c' ->
  (forall g g', l = LLoad g -> ~ inside c g') -> l <> LSendPanic -> CInv c'.
Proof.
  intros (P & H1 & H2 & H3 & H4) Hs Hser Hnp.
  destruct c as [m inc outc cl cs pan]. unfold CInv, inside in *. cbn [closers in_closed closed panicked] in *.
  assert (Hsame : forall c1 : chan T, closers c1 = cs -> in_closed c1 = inc -> closed c1 = cl -> panicked c1 = pan -> 
     panicked c1 = false /\
  (in_closed c1 = true -> closed c1 = true /\ (forall g : nat, ~ (closers c1 g = C1 \/ closers c1 g = C2))) /\
  (forall g g' : nat,
   closers c1 g = C1 \/ closers c1 g = C2 -> closers c1 g' = C1 \/ closers c1 g' = C2 -> g = g') /\
  (forall g : nat, closers c1 g = C1 -> closed c1 = false /\ in_closed c1 = false) /\
  (forall g : nat, closers c1 g = C2 -> in_closed c1 = false /\ closed c1 = true)).
  { intros c1 -> -> -> ->. auto. }
  destruct l; unfold step in Hs; cbn [mgr in_closed closers closed panicked] in Hs.
  - destruct (returned m || inc); [discriminate|]. destruct (manage_offer m); try discriminate; injection Hs as <-; now apply Hsame.
  - destruct (returned m); [discriminate|]. destruct (manage_offer m); destruct (queue m); try discriminate; injection Hs as <-; now apply Hsame.
  - destruct (returned m || negb inc); [discriminate|]. destruct (manage_offer m); try discriminate; injection Hs as <-; now apply Hsame.
  - destruct (returned m); [discriminate|]. destruct (manage_offer m); try (destruct inc); try discriminate; injection Hs as <-; now apply Hsame.
  - destruct (cs g) eqn:Eg; try discriminate. injection Hs as <-. cbn [set_closer closers in_closed closed panicked mgr out_closed].
    assert (Hno : forall g', ~ (cs g' = C1 \/ cs g' = C2)) by (intros g'; eapply Hser; reflexivity).
    destruct cl.
    + repeat split; auto.
      * intros g'. destruct (Nat.eqb g' g); [intros [?|?]; discriminate|apply Hno].
      * intros g1 g2. destruct (Nat.eqb g1 g); [intros [?|?]; discriminate|]. intros H; now apply Hno in H.
      * destruct (Nat.eqb g0 g); [discriminate|]. intros; exfalso; apply (Hno g0); auto.
      * destruct (Nat.eqb g0 g); [discriminate|]. intros; exfalso; apply (Hno g0); auto.
      * destruct (Nat.eqb g0 g); [discriminate|]. intros; exfalso; apply (Hno g0); auto.
    + assert (inc = false) by (destruct inc; [destruct (H1 eq_refl); discriminate|reflexivity]). subst inc.
      repeat split; auto; try discriminate.
      * intros g1 g2. destruct (Nat.eqb_spec g1 g), (Nat.eqb_spec g2 g); intros; try congruence; exfalso; eapply Hno; eauto.
      * destruct (Nat.eqb g0 g); [discriminate|]. exfalso; apply (Hno g0); auto.
  - destruct (cs g) eqn:Eg; try discriminate. injection Hs as <-. cbn [set_closer closers in_closed closed panicked mgr out_closed].
    destruct (H3 g Eg) as [-> ->].
    assert (Hu : forall g', (cs g' = C1 \/ cs g' = C2) -> g' = g) by (intros g' H; apply H2; auto).
    repeat split; auto; try discriminate.
    * intros g1 g2. destruct (Nat.eqb_spec g1 g), (Nat.eqb_spec g2 g); intros K1 K2; try congruence;
       [now apply Hu in K2|now apply Hu in K1|apply Hu in K1, K2; congruence].
    * destruct (Nat.eqb_spec g0 g); [discriminate|]. exfalso. apply n, Hu; auto.
  - destruct (cs g) eqn:Eg; try discriminate. injection Hs as <-. cbn [set_closer closers in_closed closed panicked mgr out_closed].
    destruct (H4 g Eg) as [-> ->].
    assert (Hu : forall g', (cs g' = C1 \/ cs g' = C2) -> g' = g) by (intros g' H; apply H2; auto).
    assert (Hn : forall g', ~ ((if Nat.eqb g' g then CEnd else cs g') = C1 \/ (if Nat.eqb g' g then CEnd else cs g') = C2)).
    { intros g'. destruct (Nat.eqb_spec g' g); [intros [?|?]; discriminate|]. intro K; apply n, Hu; auto. }
    repeat split; auto.
    * rewrite P. reflexivity.
    * intros g1 g2 K. now apply Hn in K.
    * exfalso; eapply Hn; eauto.
    * exfalso; eapply Hn; eauto.
    * exfalso; eapply Hn; eauto.
  - congruence.
Qed.

Lemma serial_no_panic tr c : serial_run newInfiniteChannel tr c -> panicked c = false.
Proof.
  intro H. assert (CInv c); [|apply H0].
  remember newInfiniteChannel as c0 eqn:E. induction H as [|c tr c' l c'' Hr IH Hok Hs Hser Hnp]; subst.
  - unfold CInv, inside. cbn. repeat split; try discriminate; intros g g' [?|?]; discriminate.
  - eapply cinv_step; eauto.
Qed.

End Chan.

Lemma recv_enabled {T} (tr : list (label T)) c v rest : run newInfiniteChannel tr c -> sent tr = received tr ++ v :: rest ->
  exists c', label_ok c (LRecv v) /\ step c (LRecv v) = Some c'.
Proof.
  intros H Hs. apply inv_run in H. destruct H as (H1 & H2 & H3 & H4 & H5 & H6).
  destruct c as [[q inn ret] inc outc cl cs pan]. cbn in *.
  assert (q = v :: rest) as -> by (rewrite Hs in H1; now apply app_inv_head in H1).
  destruct ret; [subst outc; destruct (H5 eq_refl); discriminate|].
  eexists. split; [eauto|]. destruct inn; reflexivity.
Qed.

Lemma run_cons {T} (c c1 c2 : chan T) l tr : label_ok c l -> step c l = Some c1 -> run c1 tr c2 -> run c (l :: tr) c2.
Proof.
  intros Hok Hs Hr. induction Hr as [|c1 tr c' l' c'' Hr IH Hok' Hs'].
  - apply (run_snoc c [] c l c0); [constructor|assumption|assumption].
  - apply (run_snoc c (l :: tr) c' l' c''); auto.
Qed.
Lemma serial_cons {T} (c c1 c2 : chan T) l tr : label_ok c l -> step c l = Some c1 ->
  (forall g g', l = LLoad g -> ~ inside c g') -> l <> LSendPanic -> serial_run c1 tr c2 -> serial_run c (l :: tr) c2.
Proof.
  intros Hok Hs H1 H2 Hr. induction Hr as [|c1 tr c' l' c'' Hr IH Hok' Hs' H1' H2'].
  - apply (sr_snoc c [] c l c0); [constructor|assumption|assumption|assumption|assumption].
  - apply (sr_snoc c (l :: tr) c' l' c''); auto.
Qed.
