(** Property theorems: what a resource tells its id manager and its listeners (C151, C152). *)
From Verif Require Import Base ListModel ListSpec GraphModel GraphSpec GraphInv GraphSteps GraphAcyclic AttachModel AttachSpec AttachProofs AttachErase AttachGraph AttachTotal AttachRun GraphRun.

(** ** C151 *)
(** a root of resource 1 that is contained, in a reference that resolves proxies, by an object of
    resource 2 is registered with resource 2 as well *)
Definition cross_run : list gop :=
  [OContents 1 (Add 5%nat); OList 4 children (Add 5%nat); OContents 2 (Add 4%nat)].
Theorem C151_registries_right_refuted : exists M s k r x, wf_metamodel M /\ history_any M s k /\
  (forall o f, In f (features M o) -> forall g, f_opp M f = Some g -> f_resolve M f = f_resolve M g) /\
  k r x = true /\ forall n, eResource n s x <> Some (Some r).
Proof.
  exists nodes. destruct (along_history_any nodes 5 cross_run init (fun _ _ => false) (history_any_init _)) as (s & k & E & H).
  { run_ok; match goal with H : above _ _ _ |- _ => inversion H; subst; discriminate end. }
  exists s, k, 2%nat, 5%nat. split; [exact nodes_wf|]. split; [exact H|]. split.
  { intros o f Hf g Hg. cbn in Hf. repeat destruct Hf as [<-|Hf]; cbn in Hg; try discriminate; try (injection Hg as <-; reflexivity).
    destruct Hf. }
  assert (E1 : exists s' k', runA nodes 5 init (fun _ _ => false) cross_run = Some (s', k') /\ k' 2%nat 5%nat = true
             /\ internalResource s' 5 = Some 1%nat).
  { vm_compute. eauto. }
  destruct E1 as (s' & k' & E1 & E2 & E3). rewrite E in E1. injection E1 as <- <-.
  split; [assumption|]. intros [|n]; [discriminate|]. cbn [eResource]. rewrite E3. discriminate.
Qed.
Print Assumptions C151_registries_right_refuted.

(** Unload empties the manager of a resource, the objects still answer the resource *)
Theorem C151_unload_refuted : exists M s k r x, wf_metamodel M /\ no_cross_resource M /\ history_any M s k /\
  k r x = false /\ eResource 1 s x = Some (Some r).
Proof.
  exists local.
  destruct (along_history_any local 5 [OContents 1 (Add 5%nat); OUnload 1] init (fun _ _ => false) (history_any_init _)) as (s & k & E & H).
  { run_ok. }
  exists s, k, 1%nat, 5%nat. split; [exact local_wf|]. split; [exact local_no_cross|]. split; [exact H|].
  vm_compute in E. injection E as <- <-. split; reflexivity.
Qed.
Print Assumptions C151_unload_refuted.

(** ** C152 *)
Theorem C152_registries_right : forall M s k, wf_metamodel M -> history M s k -> registries_right s k.
Proof.
  intros M s k W H. destruct (history_mid M s k W H) as (_ & _ & [HK _ _ _] & _). now apply K_right.
Qed.
Print Assumptions C152_registries_right.

(** such a call returns when it is in bounds, with the state that [gstep] computes *)
Theorem C152_calls_return : forall M s k p, wf_metamodel M -> history M s k -> legal M s p -> safe_call M s p ->
  ~ index_error s p -> exists n s' es, gstepA M n s p = Some (s', es) /\ gstep M s p = Some s'.
Proof.
  intros M s k p W H L Sf Hi. destruct (history_mid M s k W H) as (_ & _ & _ & Hr).
  destruct (gstep M s p) as [s'|] eqn:E.
  - destruct (gstepA_total M s p s' W Hr L Sf E) as (n & es & E'). eauto 6.
  - exfalso. apply Hi. now apply (panic_iff_index_error M W s p (safe_reachable M s Hr) L).
Qed.
Print Assumptions C152_calls_return.

(** when no containment link lets an object keep a resource of its own, every legal call that makes no
    cycle is proper *)
Theorem C152_local_metamodel_calls_proper : forall M s k p, wf_metamodel M -> no_cross_resource M -> history M s k ->
  legal M s p -> proper_call M s p.
Proof.
  exact local_proper.
Qed.
Print Assumptions C152_local_metamodel_calls_proper.

(** a tree moved from resource 1 to resource 2 with its descendants, then partly back *)
Definition move_run : list gop :=
  [OList 5 children (Add 6%nat); OSet 6 owns (Some 7%nat); OContents 1 (Add 5%nat); OContents 2 (Add 4%nat);
   OSet 5 parent (Some 4%nat); OContents 1 (Add 6%nat)].
Example C152_example : exists s k, history local s k /\
  k 2%nat 4%nat = true /\ k 2%nat 5%nat = true /\ k 2%nat 6%nat = false /\ k 1%nat 6%nat = true /\ k 1%nat 7%nat = true /\ k 1%nat 5%nat = false /\
  eResource 3 s 7 = Some (Some 1%nat) /\ eResource 3 s 5 = Some (Some 2%nat).
Proof.
  destruct (along_local local 5 local_wf local_no_cross move_run init (fun _ _ => false) (history_init _)) as (s & k & E & H).
  { vm_compute. reflexivity. }
  assert (E1 : match runA local 5 init (fun _ _ => false) move_run with
               | Some (s', k') => (k' 2%nat 4%nat, k' 2%nat 5%nat, k' 2%nat 6%nat, k' 1%nat 6%nat, k' 1%nat 7%nat, k' 1%nat 5%nat,
                                   eResource 3 s' 7, eResource 3 s' 5)
                                  = (true, true, false, true, true, false, Some (Some 1%nat), Some (Some 2%nat))
               | None => False end) by (vm_compute; reflexivity).
  rewrite E in E1. exists s, k. split; [exact H|]. injection E1. intros. repeat split; assumption.
Qed.
