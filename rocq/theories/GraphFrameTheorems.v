From Verif Require Import Base ListModel ListSpec GraphModel GraphSpec GraphProofs GraphInv GraphSteps GraphRun
  GraphFrameSpec GraphFrame GraphFrameRes.

(** ** C129 *)
(** the other references after a call on a reference that is not a container reference *)
Theorem C129_other_references : forall M s p o f s', wf_metamodel M -> reachable M s -> legal M s p -> call_on p o f ->
  isContainer M f = false -> gstep M s p = Some s' ->
  exists R A, (forall y, In y R <-> holds M s o f y /\ ~ holds M s' o f y)
    /\ (forall y, In y A <-> holds M s' o f y /\ ~ holds M s o f y)
    /\ forall a k, In k (features M a) -> isContainer M k = false -> a <> o \/ k <> f ->
       exists l, eGet M s a k = Some l /\ eGet M s' a k = Some (expected M o f R A a k l).
Proof. intros M s p o f s' W. exact (frame M W s p o f s'). Qed.
Print Assumptions C129_other_references.

Theorem C129_other_containers : forall M s p o f s' b, wf_metamodel M -> reachable M s -> legal M s p -> call_on p o f ->
  isContainer M f = false -> gstep M s p = Some s' ->
  (f_cont M f = true -> (holds M s o f b <-> holds M s' o f b)) ->
  container s' b = container s b /\ eContainingFeature M s' b = eContainingFeature M s b.
Proof. intros M s p o f s' b W. exact (frame_container M W s p o f s' b). Qed.
Print Assumptions C129_other_containers.

Theorem C129_roots : forall M s p o f s', wf_metamodel M -> reachable M s -> legal M s p -> call_on p o f ->
  isContainer M f = false -> gstep M s p = Some s' ->
  exists A, (forall y, In y A <-> holds M s' o f y /\ ~ holds M s o f y)
    /\ forall r, contents s' r = expected_roots M f A (contents s r).
Proof.
  intros M s p o f s' W H L Hon Hc E. destruct (reachable_ok M W s H) as [G R].
  destruct (reachable_ok M W s' (reach_step M s p s' H L E)) as [G' _].
  destruct (gstep_res M W s p o f s' G R L Hon Hc E) as (A & HA & Hr). exists A. split; [|exact Hr].
  intro y. rewrite !(holds_slot M W) by assumption. apply HA.
Qed.
Print Assumptions C129_roots.

(** the same for a container reference *)
Theorem C129_parent : forall M s p o f v s', wf_metamodel M -> reachable M s ->
  p = OSet o f v \/ (p = OUnset o f /\ v = None) -> legal M s p -> isContainer M f = true -> gstep M s p = Some s' ->
  (exists c, v = Some c /\ eGet M s o f = Some [c] /\ s' = s)
  \/ ((forall a k, In k (features M a) -> isContainer M k = false ->
         exists l, eGet M s a k = Some l /\ eGet M s' a k = Some (expected_parent M o f v a k l))
      /\ forall r, contents s' r = expected_roots_parent M o f v (contents s r)).
Proof.
  intros M s p o f v s' W H Hp L Hc E. destruct (reachable_ok M W s H) as [G R].
  destruct (frame_parent M W s o f v p s' H Hp L Hc E) as [?|Hs]; [now left|].
  destruct (parent_res M W s o f v p s' G R Hp L Hc E) as [(-> & c & Hv & Hg)|Hr]; [left; eauto|right; auto].
Qed.
Print Assumptions C129_parent.

Theorem C129_parent_other_containers : forall M s p o f v s' b, wf_metamodel M -> reachable M s ->
  p = OSet o f v \/ (p = OUnset o f /\ v = None) -> legal M s p -> isContainer M f = true -> gstep M s p = Some s' ->
  b <> o -> (forall c r, v = Some c -> f_opp M f = Some r -> f_many M r = false -> ~ holds M s c r b) ->
  container s' b = container s b /\ eContainingFeature M s' b = eContainingFeature M s b.
Proof. intros M s p o f v s' b W. exact (frame_parent_container M W s o f v p s' b). Qed.
Print Assumptions C129_parent_other_containers.

(** 1 is married to 0 and 3 to 2; 0 then marries 3: the two marriages end, the friends stay *)
Definition couples : list gop :=
  [OSet 0 husband (Some 1%nat); OSet 2 husband (Some 3%nat); OList 2 friends (AddAll (Ext [3%nat; 1%nat]));
   OList 4 children (AddAll (Ext [0%nat; 2%nat]))].
Example C129_example : exists s s', grun nodes init couples = Some s /\ reachable nodes s
  /\ legal nodes s (OSet 0 husband (Some 3%nat)) /\ gstep nodes s (OSet 0 husband (Some 3%nat)) = Some s'
  /\ eGet nodes s 1 wife = Some [0%nat] /\ eGet nodes s' 1 wife = Some []
  /\ expected nodes 0 husband [1%nat] [3%nat] 1 wife [0%nat] = []
  /\ eGet nodes s 2 husband = Some [3%nat] /\ eGet nodes s' 2 husband = Some []
  /\ expected nodes 0 husband [1%nat] [3%nat] 2 husband [3%nat] = []
  /\ eGet nodes s' 3 wife = Some [0%nat] /\ expected nodes 0 husband [1%nat] [3%nat] 3 wife [2%nat] = [0%nat]
  /\ eGet nodes s' 2 friends = Some [3%nat; 1%nat] /\ expected nodes 0 husband [1%nat] [3%nat] 2 friends [3%nat; 1%nat] = [3%nat; 1%nat].
Proof.
  destruct (along_reachable nodes couples init (reach_init _)) as (s & E & H).
  { run_ok. }
  exists s. eexists. split; [assumption|]. split; [assumption|]. split; [run_ok|].
  vm_compute in E. injection E as <-. split; [vm_compute; reflexivity|]. vm_compute. repeat split.
Qed.

(** a child moved to another parent, the root of a resource put below a reference that does not resolve *)
Definition family : list gop :=
  [OList 0 children (AddAll (Ext [1%nat; 2%nat])); OContents 0 (AddAll (Ext [0%nat; 5%nat; 6%nat]))].
Example C129_example_moved : exists s s' s'', grun nodes init family = Some s /\ reachable nodes s
  /\ gstep nodes s (OSet 1 parent (Some 5%nat)) = Some s' /\ eGet nodes s' 0 children = Some [2%nat]
  /\ expected_parent nodes 1 parent (Some 5%nat) 0 children [1%nat; 2%nat] = [2%nat]
  /\ eGet nodes s' 5 children = Some [1%nat] /\ expected_parent nodes 1 parent (Some 5%nat) 5 children [] = [1%nat]
  /\ gstep nodes s (OList 0 parts (Add 6%nat)) = Some s'' /\ contents s'' 0 = [0%nat; 5%nat]
  /\ expected_roots nodes parts [6%nat] [0%nat; 5%nat; 6%nat] = [0%nat; 5%nat].
Proof.
  destruct (along_reachable nodes family init (reach_init _)) as (s & E & H).
  { run_ok. }
  exists s. eexists _, _. split; [assumption|]. split; [assumption|].
  vm_compute in E. injection E as <-. split; [vm_compute; reflexivity|]. split; [reflexivity|]. split; [reflexivity|].
  split; [reflexivity|]. split; [reflexivity|]. split; [vm_compute; reflexivity|]. vm_compute. repeat split.
Qed.

(** C52: unsetting a container reference that is not set takes the object out of the container that
    holds it through another reference *)
Theorem C52_unset_elsewhere_refuted : exists M s s' c x f k, wf_metamodel M /\ reachable M s /\
  legal M s (OUnset x f) /\ gstep M s (OUnset x f) = Some s' /\ eGet M s x f = Some [] /\
  f_opp M k = None /\ holds M s c k x /\ ~ holds M s' c k x.
Proof.
  exists nodes. destruct (along_reachable nodes [OList 0 parts (Add 1%nat)] init (reach_init _)) as (s & E & H).
  { run_ok. }
  exists s. eexists _, 0%nat, 1%nat, parent, parts. split; [exact nodes_wf|]. split; [assumption|]. split; [run_ok|].
  vm_compute in E. injection E as <-. split; [vm_compute; reflexivity|]. split; [reflexivity|]. split; [reflexivity|].
  split.
  - exists [1%nat]. split; [reflexivity|now left].
  - intros (l & El & Hin). vm_compute in El. injection El as <-. destruct Hin.
Qed.
Print Assumptions C52_unset_elsewhere_refuted.
