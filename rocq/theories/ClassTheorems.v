(** C20, C21, C57, C58: derived views of classes. *)
From Verif Require Import Base ListModel NotifyModel ClassModel ClassSpec ClassProofs ClassProofs2 ClassProofs3.

(** *** C57 (and the part of C20 that holds): after any fair history every query but eAllCrossReferences terminates
    and answers what is computed from scratch from the super types, features and operations at that moment. *)
Theorem C57_views_never_stale :
  forall (overrides : nat -> nat -> bool) n i h q,
  (0 < n)%nat ->
  fair n (gr (freshClasses i)) (h ++ [CAsk q]) ->
  (forall c, q <> QCross c) ->
  exists s s' a,
    crun overrides n (freshClasses i) h = Some s /\
    edits (gr (freshClasses i)) h = Some (gr s) /\
    ask overrides n s q = Some (s', a) /\
    scratch overrides (gr s) q a.
Proof. exact views_fresh. Qed.
Print Assumptions C57_views_never_stale.

(** *** C21: the id of a feature of the class, own or inherited, designates the feature; other features have none. *)
Theorem C21_feature_ids :
  forall (overrides : nat -> nat -> bool) n i h c f,
  (0 < n)%nat -> fair n (gr (freshClasses i)) h ->
  exists s s1 z s2 r,
    crun overrides n (freshClasses i) h = Some s /\
    ask overrides n s (QFeatureID c f) = Some (s1, AInt z) /\
    ask overrides n s1 (QFeature c z) = Some (s2, AOpt r) /\
    ((exists d, ancestor (gr s) d c /\ In f (feats (gr s) d)) -> r = Some f) /\
    (~ (exists d, ancestor (gr s) d c /\ In f (feats (gr s) d)) -> z = -1 /\ r = None).
Proof. intros. apply (ids_ok overrides n i h KFeat c f); auto. Qed.
Print Assumptions C21_feature_ids.

(** *** C58: likewise for operations. *)
Theorem C58_operation_ids :
  forall (overrides : nat -> nat -> bool) n i h c o,
  (0 < n)%nat -> fair n (gr (freshClasses i)) h ->
  exists s s1 z s2 r,
    crun overrides n (freshClasses i) h = Some s /\
    ask overrides n s (QOperationID c o) = Some (s1, AInt z) /\
    ask overrides n s1 (QOperation c z) = Some (s2, AOpt r) /\
    ((exists d, ancestor (gr s) d c /\ In o (opers (gr s) d)) -> r = Some o) /\
    (~ (exists d, ancestor (gr s) d c /\ In o (opers (gr s) d)) -> z = -1 /\ r = None).
Proof. intros. apply (ids_ok overrides n i h KOps c o); auto. Qed.
Print Assumptions C58_operation_ids.

(** *** A fair history with a diamond: 3 below 1 and 2, both below 0; views are computed in between. *)
Definition anAttribute (id : bool) (name : nat) := mkInfo false false false false id name.
Definition aReference (cont : bool) (name : nat) := mkInfo true cont false false false name.
Definition sampleInfo (f : nat) : finfo := match f with 10 => anAttribute false 0 | 11 => aReference true 1 | 12 => aReference false 2 | _ => anAttribute false 3 end%nat.
Definition sample : list cop :=
  [CFeat 0 (Add 10); CSuper 1 (Add 0); CSuper 2 (Add 0); CSuper 3 (Add 1); CSuper 3 (Add 2);
   CAsk (QAll KFeat 3); CAsk (QContainments 3); CFeat 1 (Add 11); CAsk (QAll KFeat 3); CFeat 2 (Add 12);
   CSetID 10 true (Some 0); CAsk (QID 3); COper 0 (Add 20); CAsk (QOperationID 3 20); CSuper 3 (Move 1 0); CFeat 1 (Remove 11); CFeat 3 (Add 11)]%nat.

Lemma ok_finite n g (cs : list nat) (rank : nat -> nat) :
  (forall c, ~ In c cs -> supers g c = [] /\ feats g c = [] /\ opers g c = []) ->
  (forall c, (rank c < n)%nat) ->
  Forall (fun c => Forall (fun d => (rank d < rank c)%nat) (supers g c)) cs ->
  NoDup (concat (map (feats g) cs)) -> NoDup (concat (map (opers g) cs)) -> NoDup cs -> ok_graph n g.
Proof.
  intros Hout Hr Hs Hf Ho Hnd.
  assert (Own : forall part : nat -> list nat, (forall c, ~ In c cs -> part c = []) -> NoDup (concat (map part cs)) -> owned part).
  { intros part Hp Hn. assert (G : forall l, NoDup l -> NoDup (concat (map part l)) ->
      (forall c, In c l -> NoDup (part c)) /\ (forall c d x, In c l -> In d l -> In x (part c) -> In x (part d) -> c = d)).
    { induction l as [|c l IH]; intros N1 N2; cbn in *; [split; [intros c []|intros c d x []]|].
      apply NoDup_cons_iff in N1 as [Nc N1]. apply NoDup_app_iff in N2 as (Na & Nb & Nab). destruct (IH N1 Nb) as [I1 I2]. split.
      - intros e [<-|He]; auto.
      - assert (X : forall e x, In e l -> In x (part e) -> In x (concat (map part l))).
        { intros e x He Hx. apply in_concat. exists (part e). split; [now apply in_map|exact Hx]. }
        intros a b x [<-|Ha] [<-|Hb] Hx Hx'; auto.
        + exfalso. apply (Nab x Hx). eauto.
        + exfalso. apply (Nab x Hx'). eauto.
        + eauto. }
    destruct (G cs Hnd Hn) as [G1 G2]. split.
    - intros c. destruct (in_dec Nat.eq_dec c cs) as [H|H]; [auto|]. rewrite (Hp c H). constructor.
    - intros c d x Hx Hx'. destruct (in_dec Nat.eq_dec c cs) as [H|H]; [|rewrite (Hp c H) in Hx; destruct Hx].
      destruct (in_dec Nat.eq_dec d cs) as [H'|H']; [|rewrite (Hp d H') in Hx'; destruct Hx']. eauto. }
  split; [|split].
  - exists rank. split; [exact Hr|]. intros c d Hd. destruct (in_dec Nat.eq_dec c cs) as [H|H].
    + rewrite Forall_forall in Hs. specialize (Hs c H). rewrite Forall_forall in Hs. auto.
    + destruct (Hout c H) as (E & _). rewrite E in Hd. destruct Hd.
  - apply Own; [|exact Hf]. intros c H. apply (Hout c H).
  - apply Own; [|exact Ho]. intros c H. apply (Hout c H).
Qed.
Definition sampleRank (c : nat) : nat := match c with 1 | 2 => 1 | 3 => 2 | _ => 0 end%nat.
Ltac graph_ok :=
  apply (ok_finite 3 _ [0; 1; 2; 3]%nat sampleRank);
  [ intros [|[|[|[|c]]]] Hc; try (exfalso; apply Hc; cbn; tauto); repeat split; reflexivity
  | intros [|[|[|[|c]]]]; cbn; lia
  | repeat constructor
  | cbn; repeat constructor; cbn; intuition discriminate
  | cbn; repeat constructor; cbn; intuition discriminate
  | repeat constructor; cbn; intuition discriminate ].
Example sample_fair : fair 3 (gr (freshClasses sampleInfo)) (sample ++ [CAsk (QAll KFeat 3%nat)]).
Proof.
  unfold sample. cbn [app fair].
  repeat match goal with
  | |- True => exact I
  | |- fair_op _ _ _ /\ _ => split
  | |- match edited ?g ?o with _ => _ end =>
      let v := eval cbv in (edited g o) in change (edited g o) with v; cbv iota beta
  | |- fair_op _ _ _ => split; [try reflexivity; cbn; tauto | graph_ok]
  end.
Qed.
Example sample_answer :
  (let? s := crun (fun _ _ => false) 3 (freshClasses sampleInfo) sample in
   let? (_, a) := ask (fun _ _ => false) 3 s (QAll KFeat 3%nat) in Some a) = Some (AList [10; 12; 10; 11]%nat).
Proof. reflexivity. Qed.
Example sample_id :
  (let? s := crun (fun _ _ => false) 3 (freshClasses sampleInfo) sample in
   let? (_, a) := ask (fun _ _ => false) 3 s (QFeatureID 3 11)%nat in Some a) = Some (AInt 3).
Proof. reflexivity. Qed.

(** *** C20 in full: refuted.  eAllCrossReferences is computed once and never invalidated, neither when the class
    nor when a super type gets another reference. *)
Definition answers (h : list cop) (q : query) : option answer :=
  let? s := crun (fun _ _ => false) 3 (freshClasses sampleInfo) h in
  let? (_, a) := ask (fun _ _ => false) 3 s q in Some a.
Theorem C20_cross_references_refuted :
  exists h c f l, fair 3 (gr (freshClasses sampleInfo)) h /\ answers h (QCross c) = Some (AList []) /\
    (let? g := edits (gr (freshClasses sampleInfo)) h in Some (feats g c)) = Some l /\ In f l /\ isRef (sampleInfo f) = true /\
    isContainment (sampleInfo f) = false /\ isContainer (sampleInfo f) = false.
Proof.
  exists [CAsk (QCross 0); CFeat 0 (Add 12)]%nat, 0%nat, 12%nat, [12%nat]. split; [|repeat split; cbn; auto].
  cbn [fair].
  repeat match goal with
  | |- True => exact I
  | |- fair_op _ _ _ /\ _ => split
  | |- match edited ?g ?o with _ => _ end =>
      let v := eval cbv in (edited g o) in change (edited g o) with v; cbv iota beta
  | |- fair_op _ _ _ => split; [try reflexivity; cbn; tauto | graph_ok]
  end.
Qed.
Print Assumptions C20_cross_references_refuted.

(** A class that does not deliver notifications (ESetDeliver(false)) keeps its views, and so do its sub classes. *)
Theorem C20_undelivered_refuted :
  exists h c f, answers h (QAll KFeat c) = Some (AList []) /\ (let? g := edits (gr (freshClasses sampleInfo)) h in Some (feats g c)) = Some [f].
Proof. exists [CAsk (QAll KFeat 0); CDeliver 0 false; CFeat 0 (Add 12)]%nat, 0%nat, 12%nat. split; reflexivity. Qed.
Print Assumptions C20_undelivered_refuted.

(** Changing a reference into a containment while it is in a class leaves GetEAllContainments as it was. *)
Theorem C20_feature_update_refuted :
  exists h c f, answers h (QContainments c) = Some (AList []) /\
    (let? g := edits (gr (freshClasses sampleInfo)) h in Some (feats g c, isContainment (info g f))) = Some ([f], true).
Proof.
  exists [CFeat 0 (Add 12); CAsk (QContainments 0); CInfo 12 (aReference true 2)]%nat, 0%nat, 12%nat. split; reflexivity.
Qed.
Print Assumptions C20_feature_update_refuted.

(** Renaming a feature leaves GetEStructuralFeatureFromName as it was. *)
Theorem C20_rename_refuted :
  exists h c f old new, answers h (QName c new) = Some (AOpt None) /\ answers h (QName c old) = Some (AOpt (Some f)) /\
    (let? g := edits (gr (freshClasses sampleInfo)) h in Some (feats g c, fname (info g f))) = Some ([f], new) /\ old <> new.
Proof.
  exists [CFeat 0 (Add 10); CAsk (QName 0 0); CInfo 10 (anAttribute false 5)]%nat, 0%nat, 10%nat, 0%nat, 5%nat. repeat split. discriminate.
Qed.
Print Assumptions C20_rename_refuted.

(** What holds of C20: C57, restated for the views it names. *)
Theorem C20_views_partial :
  forall (overrides : nat -> nat -> bool) n i h k c,
  (0 < n)%nat -> In k [KSup; KAttr; KRef; KFeat; KOps] ->
  fair n (gr (freshClasses i)) (h ++ [CAsk (QAll k c)]) ->
  exists s s' a, crun overrides n (freshClasses i) h = Some s /\ ask overrides n s (QAll k c) = Some (s', a) /\
                 scratch overrides (gr s) (QAll k c) a.
Proof.
  intros ov n i h k c Hn Hk Hf. destruct (views_fresh ov n i h (QAll k c) Hn Hf) as (s & s' & a & H1 & _ & H2 & H3); [discriminate|]. eauto 6.
Qed.
Print Assumptions C20_views_partial.
