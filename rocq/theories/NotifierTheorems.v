(** C42: delivery of notifications; C50: adapter targets. *)
From Verif Require Import Base ListModel NotifierModel NotifierSpec NotifierProofs.

(** Observers that leave the adapter list alone: each registered adapter is notified once, in registration
    order, for each of any number of notifications. *)
Theorem C42_each_observer_once_in_order :
  forall (Adapter S : Type) (changed : Adapter -> S -> list Adapter -> S * list Adapter) fuel n s l,
  quiet changed -> (length l < fuel)%nat ->
  notify_many changed fuel n true s l = Some (repeat l n).
Proof. intros; now apply notify_many_quiet. Qed.
Print Assumptions C42_each_observer_once_in_order.

(** Nothing is delivered while delivery is off. *)
Theorem C42_nothing_when_off :
  forall (Adapter S : Type) (changed : Adapter -> S -> list Adapter -> S * list Adapter) fuel s l,
  ENotify changed fuel false s l = Some ([], s, l).
Proof. exact @notify_off. Qed.
Print Assumptions C42_nothing_when_off.

(** Observers that add adapters while being notified: those registered before are notified first, once
    each, in order, then the new ones. *)
Theorem C42_observers_may_add :
  forall (Adapter S : Type) (changed : Adapter -> S -> list Adapter -> S * list Adapter) fuel s l d s' l',
  only_appends changed -> ENotify changed fuel true s l = Some (d, s', l') ->
  d = l' /\ exists l3, l' = l ++ l3.
Proof. exact @notify_appends. Qed.
Print Assumptions C42_observers_may_add.

(** False in general: an observer that removes itself makes the next one miss the notification. *)
Theorem C42_each_observer_once_refuted :
  exists (changed : nat -> unit -> list nat -> unit * list nat) fuel l d s' l',
  ENotify changed fuel true tt l = Some (d, s', l') /\ l = [1; 2]%nat /\ ~ In 2%nat d /\ In 2%nat l'.
Proof.
  exists (fun a s l => if Nat.eqb a 1 then (s, filter (fun x => negb (Nat.eqb x 1)) l) else (s, l)), 5%nat,
    [1; 2]%nat, [1]%nat, tt, [2]%nat.
  repeat split; cbn; auto. intros [H|[]]; discriminate.
Qed.
Print Assumptions C42_each_observer_once_refuted.

Example C42_case_quiet :
  quiet (fun (a : nat) (s : list nat) (l : list nat) => (a :: s, l)) /\
  notify_many (fun (a : nat) (s : list nat) (l : list nat) => (a :: s, l)) 4 2 true [] [7; 8; 7]%nat
    = Some [[7; 8; 7]; [7; 8; 7]]%nat.
Proof. split; [intros a s l; reflexivity|reflexivity]. Qed.
Example C42_case_appends :
  only_appends (fun (a : nat) (s : unit) (l : list nat) => if Nat.eqb a 1 then (s, l ++ [5%nat]) else (s, l)).
Proof. intros a s l. destruct (Nat.eqb a 1); [now exists [5%nat]|exists []; cbn; now rewrite app_nil_r]. Qed.

(** C50: an adapter used with one notifier has it as target exactly while registered, for histories of
    adapter-list calls other than Clear, Set and re-adding a registered adapter. *)
Theorem C50_target_iff_registered_partial :
  forall n ops w', history_safe world0 n ops ->
  adapters_run world0 (map (fun o => (n, o)) ops) = Some w' -> targets_agree w' n.
Proof. exact run_targets0. Qed.
Print Assumptions C50_target_iff_registered_partial.

(** Clear leaves the target set. *)
Theorem C50_clear_refuted :
  exists ops w', adapters_run world0 ops = Some w' /\ target w' 7%nat = Some 1%nat /\
                 forall n, registered w' n = [].
Proof.
  exists [(1%nat, Add 7%nat); (1%nat, Clear)]. eexists; split; [reflexivity|]. split; [reflexivity|].
  intro n. cbn. destruct n as [|[|n]]; reflexivity.
Qed.
Print Assumptions C50_clear_refuted.

(** Replacing an adapter neither targets the new one nor untargets the old one. *)
Theorem C50_set_refuted :
  exists ops w', adapters_run world0 ops = Some w' /\ registered w' 1%nat = [8%nat] /\
                 target w' 8%nat = None /\ target w' 7%nat = Some 1%nat.
Proof.
  exists [(1%nat, Add 7%nat); (1%nat, SetAt 0 8%nat)]. eexists; split; [reflexivity|]. repeat split.
Qed.
Print Assumptions C50_set_refuted.

(** Registering with a second notifier and unregistering there clears the target of the first. *)
Theorem C50_two_notifiers_refuted :
  exists ops w', adapters_run world0 ops = Some w' /\ registered w' 1%nat = [7%nat] /\
                 (forall n, n <> 1%nat -> registered w' n = []) /\ target w' 7%nat = None.
Proof.
  exists [(1%nat, Add 7%nat); (2%nat, Add 7%nat); (2%nat, Remove 7%nat)]. eexists; split; [reflexivity|].
  split; [reflexivity|]. split; [|reflexivity]. intros [|[|[|n]]] H; cbn; congruence.
Qed.
Print Assumptions C50_two_notifiers_refuted.

Example C50_case_history :
  history_safe world0 1 [Add 7; Insert 0 8; AddAll (Ext [9; 10]); Remove 7; Move 0 2; RemoveAll (Ext [10; 8])]%nat.
Proof.
  vm_compute. repeat match goal with |- _ /\ _ => split end; auto;
    repeat (apply NoDup_cons || apply NoDup_nil); 
    intros; repeat match goal with
      | |- ~ _ => intro
      | H : In _ _ |- _ => cbn in H
      | H : _ \/ _ |- _ => destruct H end; subst; try contradiction; try discriminate.
Qed.
