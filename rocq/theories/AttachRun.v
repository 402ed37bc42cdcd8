(** Concrete histories for the examples and witnesses of [AttachTheorems]. *)
From Verif Require Import Base ListModel ListSpec GraphModel GraphSpec GraphRun GraphProofs GraphInv AttachModel AttachSpec AttachGraph.

Fixpoint alongA (M : metamodel) (n : nat) (ok : state -> gop -> Prop) (s : state) (ps : list gop) : Prop :=
  match ps with
  | [] => True
  | p :: ps' => ok s p /\ match gstepA M n s p with Some (s', _) => alongA M n ok s' ps' | None => False end
  end.

Lemma along_history M n ps : forall s k, history M s k ->
  alongA M n (fun s p => legal M s p /\ safe_call M s p /\ proper_call M s p) s ps ->
  exists s' k', runA M n s k ps = Some (s', k') /\ history M s' k'.
Proof.
  induction ps as [|p ps IH]; intros s k Hs H; cbn [runA alongA] in *; [eauto|].
  destruct H as [(Hp & Hq & Hr) H]. destruct (gstepA M n s p) as [[s1 es]|] eqn:E; [|contradiction]. cbn [obind].
  apply IH; [|assumption]. econstructor; eassumption.
Qed.
Lemma along_history_any M n ps : forall s k, history_any M s k ->
  alongA M n (fun s p => typed_call M s p /\ safe_call M s p) s ps ->
  exists s' k', runA M n s k ps = Some (s', k') /\ history_any M s' k'.
Proof.
  induction ps as [|p ps IH]; intros s k Hs H; cbn [runA alongA] in *; [eauto|].
  destruct H as [[Hp Hq] H]. destruct (gstepA M n s p) as [[s1 es]|] eqn:E; [|contradiction]. cbn [obind].
  apply IH; [|assumption]. econstructor; eassumption.
Qed.

(** checking a history by computation *)
Fixpoint climbs (n : nat) (s : state) (c x : obj) : bool :=
  match n with
  | O => false
  | S n' => negb (Nat.eqb x c) && match container s c with None => true | Some d => climbs n' s d x end
  end.
Lemma climbs_ok n s x : forall c, climbs n s c x = true -> may_contain s c x.
Proof.
  induction n as [|n IH]; intros c H; cbn in H; [discriminate|]. apply andb_true_iff in H as [H1 H2].
  apply negb_true_iff, Nat.eqb_neq in H1. split; [assumption|]. intro Ha.
  destruct Ha as [d c Hc|d e c Hc Ha]; rewrite Hc in H2; apply IH in H2 as [N1 N2]; [congruence|contradiction].
Qed.
Definition hasb (M : metamodel) (o : obj) (f : feature) : bool := existsb (Nat.eqb f) (features M o).
Definition linkb (M : metamodel) (o : obj) (f : feature) (x : obj) : bool :=
  hasb M o f && match f_opp M f with Some g => hasb M x g | None => true end.
Definition callb (M : metamodel) (n : nat) (s : state) (p : gop) : bool :=
  match p with
  | OSet o f (Some x) => negb (f_many M f) && linkb M o f x && (if f_cont M f then climbs n s o x else true)
                         && (if isContainer M f then climbs n s x o else true)
  | OList o f (Add x) => f_many M f && linkb M o f x && (if f_cont M f then climbs n s o x else true)
  | OContents r (Add x) => true
  | _ => false
  end.
Fixpoint alongB (M : metamodel) (n : nat) (s : state) (ps : list gop) : bool :=
  match ps with
  | [] => true
  | p :: ps' => callb M n s p && match gstepA M n s p with Some (s', _) => alongB M n s' ps' | None => false end
  end.
Lemma hasb_ok M o f : hasb M o f = true -> In f (features M o).
Proof. unfold hasb. rewrite existsb_exists. intros (g & Hg & E). apply Nat.eqb_eq in E as ->. assumption. Qed.
Lemma linkb_ok M o f x : linkb M o f x = true -> link_typed M o f x.
Proof.
  unfold linkb. intro H. apply andb_true_iff in H as [H1 H2]. split; [now apply hasb_ok|].
  intros g Hg. rewrite Hg in H2. now apply hasb_ok.
Qed.
Lemma callb_ok M n s p : callb M n s p = true -> legal M s p /\ safe_call M s p.
Proof.
  destruct p as [o f [x|]|o f|o f []|r []|r]; cbn [callb]; try discriminate; intro H.
  - apply andb_true_iff in H as [H H4]. apply andb_true_iff in H as [H H3]. apply andb_true_iff in H as [H1 H2].
    apply negb_true_iff in H1. apply linkb_ok in H2. split.
    + split; [assumption|]. split; [apply H2|]. intros y Hy. now injection Hy as <-.
    + split; intro Hf; [rewrite Hf in H3|rewrite Hf in H4]; eapply climbs_ok; eassumption.
  - apply andb_true_iff in H as [H H3]. apply andb_true_iff in H as [H1 H2]. apply linkb_ok in H2. split.
    + split; [assumption|]. split; [apply H2|]. split; [exact I|]. intros y [<-|[]]. assumption.
    + intros Hf y [<-|[]]. rewrite Hf in H3. eapply climbs_ok; eassumption.
  - split; exact I.
Qed.
Lemma along_local M n : wf_metamodel M -> no_cross_resource M -> forall ps s k, history M s k -> alongB M n s ps = true ->
  exists s' k', runA M n s k ps = Some (s', k') /\ history M s' k'.
Proof.
  intros W Hn. induction ps as [|p ps IH]; intros s k Hs H; cbn [runA alongB] in *; [eauto|].
  apply andb_true_iff in H as [Hp H]. apply callb_ok in Hp as [Hp Hq].
  destruct (gstepA M n s p) as [[s1 es]|] eqn:E; [|discriminate]. cbn [obind].
  apply IH; [|assumption]. econstructor; try eassumption. eapply local_proper; eassumption.
Qed.

(** [nodes] with a parent reference that does not resolve proxies *)
Definition local_info (f : nat) : featureInfo :=
  match f with
  | 0%nat => FI true true (Some parent) false 0
  | 1%nat => FI false false (Some GraphRun.children) false 1
  | _ => node_info f
  end.
Definition local : metamodel := MM local_info (allFeatures nodes) (fun _ => 0%nat).
Lemma local_wf : wf_metamodel local.
Proof.
  constructor.
  - intros o f H. cbn in H. repeat destruct H as [<-|H]; try (split; [cbv; discriminate|reflexivity]). destruct H.
  - intros f g H. do 9 (destruct f as [|f]; [cbn in H; first [discriminate|injection H as <-; split; [reflexivity|cbv; discriminate]]|]).
    discriminate.
  - intros f g H1 H2. do 9 (destruct f as [|f]; [cbn in *; first [discriminate|injection H2 as <-; split; reflexivity]|]).
    discriminate.
Qed.
Lemma local_no_cross : no_cross_resource local.
Proof. intros f H. do 9 (destruct f as [|f]; [cbn in *; first [discriminate|reflexivity]|]). discriminate. Qed.
