(** Concrete metamodels and runs for the examples and witnesses of [GraphTheorems]. *)
From Verif Require Import Base ListModel ListSpec GraphModel GraphSpec.

Fixpoint along (M : metamodel) (ok : state -> gop -> Prop) (s : state) (ps : list gop) : Prop :=
  match ps with
  | [] => True
  | p :: ps' => ok s p /\ match gstep M s p with Some s' => along M ok s' ps' | None => False end
  end.

Lemma along_reachable M ps : forall s, reachable M s -> along M (legal M) s ps ->
  exists s', grun M s ps = Some s' /\ reachable M s'.
Proof.
  induction ps as [|p ps IH]; intros s Hs H; cbn [grun along] in *; [eauto|].
  destruct H as [Hp H]. destruct (gstep M s p) as [s1|] eqn:E; [|contradiction]. cbn [obind].
  apply IH; [|assumption]. econstructor; eassumption.
Qed.
Lemma along_reachable_any M ps : forall s, reachable_any M s -> along M (typed_call M) s ps ->
  exists s', grun M s ps = Some s' /\ reachable_any M s'.
Proof.
  induction ps as [|p ps IH]; intros s Hs H; cbn [grun along] in *; [eauto|].
  destruct H as [Hp H]. destruct (gstep M s p) as [s1|] eqn:E; [|contradiction]. cbn [obind].
  apply IH; [|assumption]. econstructor; eassumption.
Qed.
Lemma along_reachable_safe M ps : forall s, reachable_safe M s ->
  along M (fun s p => legal M s p /\ safe_call M s p) s ps ->
  exists s', grun M s ps = Some s' /\ reachable_safe M s'.
Proof.
  induction ps as [|p ps IH]; intros s Hs H; cbn [grun along] in *; [eauto|].
  destruct H as [[Hp Hq] H]. destruct (gstep M s p) as [s1|] eqn:E; [|contradiction]. cbn [obind].
  apply IH; [|assumption]. econstructor; eassumption.
Qed.

(** nodes: children/parent, friends/friendOf, owns, note, husband/wife, parts *)
Definition children := 0%nat.
Definition parent := 1%nat.
Definition friends := 2%nat.
Definition friendOf := 3%nat.
Definition owns := 4%nat.
Definition note := 5%nat.
Definition husband := 6%nat.
Definition wife := 7%nat.
Definition parts := 8%nat.

Definition node_info (f : nat) : featureInfo :=
  match f with
  | 0%nat => FI true true (Some parent) true 0
  | 1%nat => FI false false (Some children) true 1
  | 2%nat => FI true false (Some friendOf) true 2
  | 3%nat => FI true false (Some friends) true 3
  | 4%nat => FI false true None false 4
  | 5%nat => FI false false None true 5
  | 6%nat => FI false false (Some wife) true 6
  | 7%nat => FI false false (Some husband) true 7
  | 8%nat => FI true true None false 8
  | _ => FI false false None true (-1)
  end.
Definition nodes : metamodel :=
  MM node_info (fun _ => [children; parent; friends; friendOf; owns; note; husband; wife; parts]) (fun _ => 0%nat).

Lemma nodes_wf : wf_metamodel nodes.
Proof.
  constructor.
  - intros o f H. cbn in H. repeat destruct H as [<-|H]; try (split; [cbv; discriminate|reflexivity]). destruct H.
  - intros f g H. do 9 (destruct f as [|f]; [cbn in H; first [discriminate|injection H as <-; split; [reflexivity|cbv; discriminate]]|]).
    discriminate.
  - intros f g H1 H2. do 9 (destruct f as [|f]; [cbn in *; first [discriminate|injection H2 as <-; split; reflexivity]|]).
    discriminate.
Qed.

(** the same with a container reference that resolves proxies while the containment reference does not *)
Definition mixed_info (f : nat) : featureInfo :=
  match f with
  | 0%nat => FI true true (Some parent) false 0
  | _ => node_info f
  end.
Definition mixed : metamodel := MM mixed_info (allFeatures nodes) (fun _ => 0%nat).
Lemma mixed_wf : wf_metamodel mixed.
Proof.
  constructor.
  - intros o f H. cbn in H. repeat destruct H as [<-|H]; try (split; [cbv; discriminate|reflexivity]). destruct H.
  - intros f g H. do 9 (destruct f as [|f]; [cbn in H; first [discriminate|injection H as <-; split; [reflexivity|cbv; discriminate]]|]).
    discriminate.
  - intros f g H1 H2. do 9 (destruct f as [|f]; [cbn in *; first [discriminate|injection H2 as <-; split; reflexivity]|]).
    discriminate.
Qed.

(** class C extends A, B: the first feature of B has the id it has in B *)
Definition diamond : metamodel :=
  MM (fun f => match f with 0%nat => FI false false None true 0 | _ => FI false true None true 0 end)
     (fun _ => [0%nat; 1%nat]) (fun _ => 0%nat).

(** a many-valued reference that is its own opposite *)
Definition selfopp : metamodel := MM (fun _ => FI true false (Some 0%nat) true 0) (fun _ => [0%nat]) (fun _ => 0%nat).

(** decides the calls of a concrete run *)
Ltac run_ok :=
  vm_compute; repeat match goal with
    | |- _ /\ _ => split
    | |- forall _, _ => intro
    | H : False |- _ => destruct H
    | H : _ \/ _ |- _ => destruct H as [H|H]; subst
    | H : Some _ = Some _ |- _ => injection H as H; subst
    | H : None = Some _ |- _ => discriminate H
    | H : true = false |- _ => discriminate H
    | H : false = true |- _ => discriminate H
    end; auto 20; try discriminate.
