(** Property theorems: the object graph (C05, C06, C08, C09, C45, C48, C52, C53, C54). *)
From Verif Require Import Base ListModel ListSpec GraphModel GraphSpec GraphProofs GraphInv GraphSteps GraphAcyclic GraphRun
  ResourceSetModel ResourceSetSpec ResourceSetProofs.

(** ** C05 *)

(** every history of typed calls other than EUnset of a many-valued reference with an inverse, and Unload *)
Theorem C05_containment_agrees_partial : forall M s, wf_metamodel M -> reachable M s -> containment_agrees M s.
Proof. intros M s W H. apply (agrees_of_inv M W). now apply (reachable_ok M W). Qed.
Print Assumptions C05_containment_agrees_partial.

Theorem C05_at_most_one_place_partial : forall M s c f c' f' x, wf_metamodel M -> reachable M s ->
  f_cont M f = true -> f_cont M f' = true -> holds M s c f x -> holds M s c' f' x -> c = c' /\ f = f'.
Proof.
  intros M s c f c' f' x W H Hf Hf' H1 H2. destruct (C05_containment_agrees_partial M s W H) as [A _].
  apply A in H1 as [E1 E2], H2 as [E3 E4]; [|assumption|assumption]. split; congruence.
Qed.
Print Assumptions C05_at_most_one_place_partial.

(** these calls panic exactly when the list operation itself does *)
Theorem C05_calls_panic_only_on_bad_position : forall M s p, wf_metamodel M -> reachable M s -> legal M s p ->
  (gstep M s p = None <-> index_error s p).
Proof. intros M s p W. exact (panic_iff_index_error M W s p). Qed.
Print Assumptions C05_calls_panic_only_on_bad_position.

(** a tree of three nodes built through both ends, a node then moved to another container *)
Definition tree_run : list gop :=
  [OList 0 children (AddAll (Ext [1%nat; 2%nat])); OSet 3 parent (Some 1%nat); OSet 4 owns (Some 2%nat); OList 0 parts (Insert 0 5%nat)].
Example C05_example : exists s, grun nodes init tree_run = Some s /\ reachable nodes s /\
  eGet nodes s 0 children = Some [1%nat] /\ eGet nodes s 4 owns = Some [2%nat] /\ container s 2 = Some 4%nat /\
  eGet nodes s 1 children = Some [3%nat] /\ eContainingFeature nodes s 3 = Some children.
Proof.
  destruct (along_reachable nodes tree_run init (reach_init _)) as (s & E & H).
  { run_ok. }
  exists s. split; [assumption|]. split; [assumption|]. vm_compute in E. injection E as <-. vm_compute. auto 20.
Qed.

(** EUnset of a many-valued containment reference empties it without telling the children *)
Theorem C05_containment_agrees_refuted : exists M s x c, wf_metamodel M /\ reachable_any M s /\
  container s x = Some c /\ forall f, f_cont M f = true -> ~ holds M s c f x.
Proof.
  exists nodes. destruct (along_reachable_any nodes [OList 0 parts (Add 1%nat); OUnset 0 parts] init (reach_any_init _)) as (s & E & H).
  { run_ok. }
  exists s, 1%nat, 0%nat. split; [exact nodes_wf|]. split; [assumption|]. vm_compute in E. injection E as <-.
  split; [reflexivity|]. intros f Hf (l & El & Hx).
  do 9 (destruct f as [|f]; [vm_compute in El; injection El as <-; destruct Hx|]). discriminate.
Qed.
Print Assumptions C05_containment_agrees_refuted.

(** with several supertypes a call through a feature acts on another one (see C52) *)
Theorem C05_multiple_inheritance_refuted : exists M s x c f, reachable M s /\
  f_cont M f = true /\ holds M s c f x /\ container s x = None.
Proof.
  exists diamond. destruct (along_reachable diamond [OSet 0 1 (Some 1%nat)] init (reach_init _)) as (s & E & H).
  { run_ok. }
  exists s, 1%nat, 0%nat, 1%nat. split; [assumption|]. vm_compute in E. injection E as <-.
  split; [reflexivity|]. split; [|reflexivity]. exists [1%nat]. split; [reflexivity|now left].
Qed.
Print Assumptions C05_multiple_inheritance_refuted.

(** ** C06 *)
Theorem C06_opposites_agree_partial : forall M s, wf_metamodel M -> reachable M s -> opposites_agree M s.
Proof. intros M s W H. apply (opposites_of_inv M W). now apply (reachable_ok M W). Qed.
Print Assumptions C06_opposites_agree_partial.

(** one-one, many-many and one-many links made, one stolen by a third object *)
Definition links_run : list gop :=
  [OSet 0 husband (Some 1%nat); OSet 2 husband (Some 1%nat); OList 0 friends (AddAll (Ext [1%nat; 2%nat])); OList 1 friendOf (Remove 0%nat);
   OSet 3 parent (Some 0%nat)].
Example C06_example : exists s, grun nodes init links_run = Some s /\ reachable nodes s /\
  eGet nodes s 0 husband = Some [] /\ eGet nodes s 1 wife = Some [2%nat] /\ eGet nodes s 0 friends = Some [2%nat] /\
  eGet nodes s 2 friendOf = Some [0%nat] /\ eGet nodes s 0 children = Some [3%nat].
Proof.
  destruct (along_reachable nodes links_run init (reach_init _)) as (s & E & H).
  { run_ok. }
  exists s. split; [assumption|]. split; [assumption|]. vm_compute in E. injection E as <-. vm_compute. auto 20.
Qed.

(** EUnset of a many-valued reference leaves the other ends *)
Theorem C06_opposites_agree_refuted : exists M s r q a b, wf_metamodel M /\ reachable_any M s /\
  f_opp M r = Some q /\ holds M s b q a /\ ~ holds M s a r b.
Proof.
  exists nodes. destruct (along_reachable_any nodes [OList 0 friends (Add 1%nat); OUnset 0 friends] init (reach_any_init _)) as (s & E & H).
  { run_ok. }
  exists s, friends, friendOf, 0%nat, 1%nat. split; [exact nodes_wf|]. split; [assumption|]. vm_compute in E. injection E as <-.
  split; [reflexivity|]. split; [exists [0%nat]; split; [reflexivity|now left]|].
  intros (l & El & Hx). vm_compute in El. injection El as <-. destruct Hx.
Qed.
Print Assumptions C06_opposites_agree_refuted.

(** a reference that is its own opposite: adding an object to its own list stores it twice *)
Theorem C06_own_opposite_refuted : exists s, reachable selfopp s /\ eGet selfopp s 0 0 = Some [0%nat; 0%nat].
Proof.
  destruct (along_reachable selfopp [OList 0 0 (Add 0%nat)] init (reach_init _)) as (s & E & H).
  { run_ok. }
  exists s. split; [assumption|]. vm_compute in E. injection E as <-. reflexivity.
Qed.
Print Assumptions C06_own_opposite_refuted.

(** ** C08 *)
Theorem C08_resources_agree_partial : forall M s, wf_metamodel M -> reachable M s -> resources_agree s.
Proof. intros M s W H. apply (resources_of_inv M s). now apply (reachable_ok M W). Qed.
Print Assumptions C08_resources_agree_partial.

(** the contents behave as a sequence without duplicates *)
Theorem C08_contents_call_takes_effect : forall M s r p s', wf_metamodel M -> reachable M s ->
  legal M s (OContents r p) -> gstep M s (OContents r p) = Some s' ->
  exists q, spec_step Nat.eqb true (contents s r) p = Some q /\ contents s' r = fst q.
Proof. intros M s r p s' W. exact (contents_read_back M W s r p s'). Qed.
Print Assumptions C08_contents_call_takes_effect.

(** an object added to another resource leaves the first one *)
Theorem C08_one_resource_partial : forall M s r r' x, wf_metamodel M -> reachable M s ->
  In x (contents s r) -> In x (contents s r') -> r = r'.
Proof.
  intros M s r r' x W H H1 H2. destruct (C08_resources_agree_partial M s W H) as [A _].
  apply A in H1, H2. congruence.
Qed.
Print Assumptions C08_one_resource_partial.

(** resource sets: all histories of calls on the resource lists *)
Theorem C08_resource_sets_agree : forall s, rs_reachable s -> sets_agree s.
Proof. exact rs_reachable_ok. Qed.
Print Assumptions C08_resource_sets_agree.

Theorem C08_resource_list_call_takes_effect : forall s q p, rs_reachable s -> op_ok Nat.eqb (resources s q) p ->
  match spec_step Nat.eqb true (resources s q) p with
  | None => resourcesOp s q p = None
  | Some (d, _) => exists s', resourcesOp s q p = Some s' /\ sets_agree s' /\ resources s' q = d
  end.
Proof. intros s q p H. exact (resourcesOp_ok s q p (rs_reachable_ok s H)). Qed.
Print Assumptions C08_resource_list_call_takes_effect.

Definition contents_run : list gop :=
  [OContents 0 (AddAll (Ext [1%nat; 2%nat])); OContents 1 (Add 1%nat); OSet 0 owns (Some 2%nat)].
Example C08_example : exists s, grun nodes init contents_run = Some s /\ reachable nodes s /\
  contents s 0 = [] /\ contents s 1 = [1%nat] /\ internalResource s 1 = Some 1%nat /\ internalResource s 2 = None /\
  loaded s 0 = false /\ loaded s 1 = true.
Proof.
  destruct (along_reachable nodes contents_run init (reach_init _)) as (s & E & H).
  { run_ok. }
  exists s. split; [assumption|]. split; [assumption|]. vm_compute in E. injection E as <-. vm_compute. auto 20.
Qed.
Example C08_sets_example : exists s, rs_reachable s /\ resources s 0 = [7%nat] /\ resources s 1 = [8%nat] /\ resourceSetOf s 8 = Some 1%nat.
Proof.
  eexists. split.
  - eapply (rs_call _ 1 (Add 8%nat)); [eapply (rs_call _ 0 (Add 8%nat)); [eapply (rs_call _ 0 (Add 7%nat)); [constructor|exact I|]|exact I|]|exact I|];
      reflexivity.
  - vm_compute. auto.
Qed.

(** ** C09 *)
Theorem C09_unload_detaches_refuted : exists M s r x, wf_metamodel M /\ reachable_any M s /\
  gstep M s (OUnload r) = Some s /\ loaded s r = false /\ contents s r = [] /\ internalResource s x = Some r.
Proof.
  exists nodes. destruct (along_reachable_any nodes [OContents 0 (Add 1%nat); OUnload 0] init (reach_any_init _)) as (s & E & H).
  { vm_compute. auto. }
  exists s, 0%nat, 1%nat. split; [exact nodes_wf|]. split; [assumption|]. vm_compute in E. injection E as <-. vm_compute. auto 20.
Qed.
Print Assumptions C09_unload_detaches_refuted.

(** not a corner case: Unload never detaches anything *)
Theorem C09_unload_keeps_every_link : forall M s r s', gstep M s (OUnload r) = Some s' ->
  internalResource s' = internalResource s /\ (loaded s r = true -> contents s' r = [] /\ loaded s' r = false).
Proof.
  intros M s r s' E. cbn in E. unfold unload in E. destruct (loaded s r); injection E as <-; cbn; [|split; [reflexivity|discriminate]].
  rewrite !upd_eq. auto.
Qed.
Print Assumptions C09_unload_keeps_every_link.

Theorem C08_unload_refuted : exists M s r x, wf_metamodel M /\ reachable_any M s /\
  internalResource s x = Some r /\ ~ In x (contents s r).
Proof.
  destruct C09_unload_detaches_refuted as (M & s & r & x & W & H & _ & _ & E & I).
  exists M, s, r, x. rewrite E. auto.
Qed.
Print Assumptions C08_unload_refuted.

(** ** C48 *)
Theorem C48_loaded_iff_contents_partial : forall M s r, wf_metamodel M -> reachable M s ->
  (loaded s r = true <-> contents s r <> []).
Proof.
  intros M s r W H. destruct (reachable_ok M W s H) as [_ (_ & _ & L & _)]. rewrite L.
  destruct (contents s r); cbn; split; congruence.
Qed.
Print Assumptions C48_loaded_iff_contents_partial.

(** ** C45 *)

(** a containment reference may be given an object that contains its owner *)
Theorem C45_acyclic_refuted : exists M s x, wf_metamodel M /\ reachable M s /\ above s x x /\
  forall n, eResource n s x = None.
Proof.
  exists nodes. destruct (along_reachable nodes [OSet 0 owns (Some 1%nat); OSet 1 owns (Some 0%nat)] init (reach_init _)) as (s & E & H).
  { run_ok. }
  exists s, 0%nat. split; [exact nodes_wf|]. split; [assumption|]. vm_compute in E. injection E as <-.
  split; [eapply above_step; [reflexivity|apply above_direct; reflexivity]|].
  match goal with |- forall n, eResource n ?s _ = None =>
    assert (Hn : forall n, eResource n s 0 = None /\ eResource n s 1 = None) end.
  { induction n as [|n [IH1 IH2]]; [split; reflexivity|]. split; cbn [eResource]; cbn; assumption. }
  intro n. apply Hn.
Qed.
Print Assumptions C45_acyclic_refuted.

(** as long as no call asks for it, no cycle appears, and EResource returns *)
Theorem C45_acyclic_partial : forall M s, wf_metamodel M -> reachable_safe M s -> acyclic s.
Proof. intros M s W. exact (reachable_acyclic M W s). Qed.
Print Assumptions C45_acyclic_partial.
Theorem C45_eresource_returns_partial : forall M s x, wf_metamodel M -> reachable_safe M s ->
  exists n, eResource n s x <> None.
Proof. intros M s x W. exact (eResource_total M W s x). Qed.
Print Assumptions C45_eresource_returns_partial.

Example C45_example : exists s, reachable_safe nodes s /\ above s 0 3 /\ eResource 3 s 3 = Some (Some 9%nat).
Proof.
  destruct (along_reachable_safe nodes [OSet 3 parent (Some 1%nat); OSet 1 parent (Some 0%nat); OContents 9 (Add 0%nat)] init (reach_safe_init _))
    as (s & E & H).
  { run_ok; match goal with H : above _ _ _ |- _ => inversion H; subst; discriminate end. }
  exists s. split; [assumption|]. vm_compute in E. injection E as <-. split; [|reflexivity].
  eapply above_step; [reflexivity|apply above_direct; reflexivity].
Qed.

(** ** C52 *)
Theorem C52_set_is_read_back_partial : forall M s o f v s', wf_metamodel M -> reachable M s ->
  legal M s (OSet o f v) -> gstep M s (OSet o f v) = Some s' -> eGet M s' o f = Some (to_list v).
Proof. intros M s o f v s' W. exact (set_read_back M W s o f v s'). Qed.
Print Assumptions C52_set_is_read_back_partial.
Theorem C52_unset_is_read_back_partial : forall M s o f s', wf_metamodel M -> reachable M s ->
  legal M s (OUnset o f) -> gstep M s (OUnset o f) = Some s' -> eGet M s' o f = Some [].
Proof. intros M s o f s' W. exact (unset_read_back M W s o f s'). Qed.
Print Assumptions C52_unset_is_read_back_partial.
Theorem C52_list_call_is_read_back_partial : forall M s o f p s', wf_metamodel M -> reachable M s ->
  legal M s (OList o f p) -> gstep M s (OList o f p) = Some s' ->
  exists l r, eGet M s o f = Some l /\ spec_step Nat.eqb true l p = Some r /\ eGet M s' o f = Some (fst r).
Proof. intros M s o f p s' W. exact (list_read_back M W s o f p s'). Qed.
Print Assumptions C52_list_call_is_read_back_partial.

(** two supertypes: a call through the first feature of the second one sets the first feature of the first one *)
Theorem C52_set_is_read_back_refuted : exists M s o f g, reachable M s /\ f <> g /\ In f (features M o) /\ In g (features M o) /\
  gstep M init (OSet o f (Some 1%nat)) = Some s /\ eGet M init o g = Some [] /\ eGet M s o g = Some [1%nat].
Proof.
  exists diamond. destruct (along_reachable diamond [OSet 0 1 (Some 1%nat)] init (reach_init _)) as (s & E & H).
  { run_ok. }
  exists s, 0%nat, 1%nat, 0%nat. split; [assumption|]. split; [discriminate|]. vm_compute in E. injection E as <-. vm_compute. auto 10.
Qed.
Print Assumptions C52_set_is_read_back_refuted.

(** ** C53 *)
Theorem C53_containment_feature_partial : forall M s x, wf_metamodel M -> reachable M s ->
  (forall f, eContainingFeature M s x = Some f -> f_opp M f = None) -> containment_feature_right M s x.
Proof. intros M s x W. exact (containment_feature_uni M W s x). Qed.
Print Assumptions C53_containment_feature_partial.
Theorem C53_remove_detaches_partial : forall M s x, wf_metamodel M -> reachable M s ->
  (forall f, eContainingFeature M s x = Some f -> f_opp M f = None) ->
  exists s', removeObject M s x = Some s' /\ detached M s' x.
Proof.
  intros M s x W H Hu. destruct (removeObject_ok M W s x H Hu) as (s' & E & _ & _ & D). eauto.
Qed.
Print Assumptions C53_remove_detaches_partial.

(** with a container reference, Remove detaches the container of the object instead of the object *)
Theorem C53_remove_detaches_refuted : exists M s s' x c d, wf_metamodel M /\ reachable_safe M s /\
  container s x = Some c /\ container s c = Some d /\
  removeObject M s x = Some s' /\ container s' x = Some c /\ container s' c = None.
Proof.
  exists nodes. destruct (along_reachable_safe nodes [OSet 2 parent (Some 1%nat); OSet 1 parent (Some 0%nat)] init (reach_safe_init _))
    as (s & E & H).
  { run_ok; match goal with H : above _ _ _ |- _ => inversion H; subst; discriminate end. }
  vm_compute in E. injection E as <-.
  eexists _, _, 2%nat, 1%nat, 0%nat. split; [exact nodes_wf|]. split; [exact H|]. vm_compute. auto 10.
Qed.
Print Assumptions C53_remove_detaches_refuted.

Example C53_example : exists s s', reachable nodes s /\ container s 1 = Some 0%nat /\ eContainingFeature nodes s 1 = Some parts /\
  removeObject nodes s 1 = Some s' /\ eGet nodes s' 0 parts = Some [2%nat] /\ container s' 1 = None.
Proof.
  destruct (along_reachable nodes [OList 0 parts (AddAll (Ext [1%nat; 2%nat]))] init (reach_init _)) as (s & E & H).
  { run_ok. }
  vm_compute in E. injection E as <-. eexists _, _. split; [exact H|]. vm_compute. auto 10.
Qed.

(** ** C54 *)
Theorem C54_contained_root_needs_resolving_reference_partial : forall M s x c r, wf_metamodel M -> reachable M s ->
  (forall f g, f_opp M f = Some g -> f_resolve M f = f_resolve M g) ->
  container s x = Some c -> In x (contents s r) ->
  exists f, eContainingFeature M s x = Some f /\ f_resolve M f = true.
Proof.
  intros M s x c r W H Hr Hc Hin. destruct (reachable_ok M W s H) as [G (R1 & _ & _ & R4)].
  apply R1 in Hin. destruct (R4 x c r Hc Hin) as (cf & E & Hrv).
  destruct (g_ex M s G x c Hc) as (f & Hf & Hx).
  destruct (containing_of_slot M W s c f x G Hf Hx) as [_ Ef]. exists f. split; [assumption|].
  unfold eContainingFeature in Ef. rewrite Hc in Ef. unfold eContainmentFeature in E.
  destruct (containerFeatureID s x <=? BASE); [congruence|].
  rewrite E in Ef. cbn [obind] in Ef. now rewrite <- (Hr cf f Ef).
Qed.
Print Assumptions C54_contained_root_needs_resolving_reference_partial.

(** the code looks at the container reference, not at the containment reference *)
Theorem C54_contained_root_refuted : exists M s x c r f, wf_metamodel M /\ reachable M s /\
  container s x = Some c /\ In x (contents s r) /\ eContainingFeature M s x = Some f /\ f_resolve M f = false.
Proof.
  exists mixed. destruct (along_reachable mixed [OContents 0 (Add 1%nat); OSet 1 parent (Some 0%nat)] init (reach_init _)) as (s & E & H).
  { run_ok. }
  exists s, 1%nat, 0%nat, 0%nat, children. split; [exact mixed_wf|]. split; [assumption|].
  vm_compute in E. injection E as <-. vm_compute. auto 10.
Qed.
Print Assumptions C54_contained_root_refuted.
