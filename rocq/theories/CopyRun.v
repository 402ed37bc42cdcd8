(** Concrete metamodels and states for the examples and witnesses of [CopyTheorems]. *)
From Verif Require Import Base EqualModel EqualSpec ListModel ListSpec GraphModel GraphSpec GraphRun CopyModel CopySpec.

(** nodes with a name and tags *)
Definition name := 9%nat.
Definition tags := 10%nat.
Definition named_info (f : nat) : featureInfo :=
  match f with
  | 9%nat => FI false false None false 9
  | 10%nat => FI true false None false 10
  | _ => node_info f
  end.
Definition named : metamodel :=
  MM named_info (fun _ => [children; parent; friends; friendOf; owns; note; husband; wife; parts; name; tags]) (fun _ => 0%nat).
Lemma named_wf : wf_metamodel named.
Proof.
  constructor.
  - intros o f H. cbn in H. repeat destruct H as [<-|H]; try (split; [cbv; discriminate|reflexivity]). destruct H.
  - intros f g H. do 11 (destruct f as [|f]; [cbn in H; first [discriminate|injection H as <-; split; [reflexivity|cbv; discriminate]]|]).
    discriminate.
  - intros f g H1 H2. do 11 (destruct f as [|f]; [cbn in *; first [discriminate|injection H2 as <-; split; reflexivity]|]).
    discriminate.
Qed.
Definition is_attribute (f : feature) : bool := ((f =? 9) || (f =? 10))%nat.
Definition references := [children; parent; friends; friendOf; owns; note; husband; wife; parts].
(** all the references are declared by the class *)
Definition plain : copyInfo := CI (fun _ => true) (fun _ => false) is_attribute (fun _ => references).
Definition plain_own (_ : nat) : list feature := references ++ [name; tags].
(** the name cannot be changed *)
Definition fixed_name : copyInfo := CI (fun f => negb (f =? 9)%nat) (fun _ => false) is_attribute (fun _ => references).
(** the note is inherited *)
Definition inherited : copyInfo := CI (fun _ => true) (fun _ => false) is_attribute (fun _ => [children; parent; friends; friendOf; owns; husband; wife; parts]).
Definition inherited_own (_ : nat) : list feature := [children; parent; friends; friendOf; owns; husband; wife; parts; name; tags].

Definition create (k _ : nat) : obj := (20 + k)%nat.
Lemma create_factory : factory named create.
Proof. constructor; [reflexivity|]. unfold create. lia. Qed.
Ltac nodup := repeat constructor; cbn; intuition discriminate.
Lemma plain_listed : features_listed named plain.
Proof. intro o. split; [nodup|]. split; [nodup|]. cbn. tauto. Qed.
Lemma fixed_listed : features_listed named fixed_name.
Proof. intro o. split; [nodup|]. split; [nodup|]. cbn. tauto. Qed.
Lemma inherited_listed : features_listed named inherited.
Proof. intro o. split; [nodup|]. split; [nodup|]. cbn. tauto. Qed.
Ltac decl := intros o f Hf; cbn in Hf; repeat destruct Hf as [<-|Hf]; try (destruct Hf); (split; [cbn; tauto|cbn; first [discriminate|tauto]]).
Lemma plain_declared : declared named plain plain_own.
Proof. decl. Qed.
Lemma fixed_declared : declared named fixed_name plain_own.
Proof. decl. Qed.
Lemma inherited_declared : declared named inherited inherited_own.
Proof. decl. Qed.

(** the state after a run, with attributes; lists: 0 is [5; 6] *)
Definition at_state (run : list gop) (a : obj -> feature -> option cell) : cstate :=
  CS (match grun named init run with Some g => g | None => init end) a (fun l => match l with O => [5; 6]%nat | _ => [] end) 0 1 [].
Definition run_legal (run : list gop) : Prop := along named (legal named) init run.
(** only the objects 0 .. 5 and the features 0 .. 10 are used *)
Definition small (s : cstate) : Prop :=
  (forall o f, (5 < o)%nat -> slot (graph s) o f = [] /\ attrs s o f = None) /\ (forall o f, (10 < f)%nat -> slot (graph s) o f = []) /\
  (forall o, (5 < o)%nat -> container (graph s) o = None /\ internalResource (graph s) o = None) /\
  (forall o f x, (o <= 5)%nat -> (f <= 10)%nat -> In x (slot (graph s) o f) -> (x <= 5)%nat).
Lemma small_good run a : run_legal run -> small (at_state run a) ->
  (forall o f l, a o f = Some (CList l) -> l = O) -> (forall o f o' f' l, a o f = Some (CList l) -> a o' f' = Some (CList l) -> o = o' /\ f = f') ->
  good named create (at_state run a).
Proof.
  intros Hr (H1 & H2 & H3 & H4) H5 H6. constructor.
  - destruct (along_reachable named run init (reach_init _) Hr) as (s & E & H). cbn. now rewrite E.
  - intros z (k & c & _ & ->). unfold create. constructor.
    + intro f. apply H1. lia.
    + apply H3. lia.
    + apply H3. lia.
    + intros o f Hin. destruct (le_gt_dec o 5) as [Ho|Ho]; [|destruct (H1 o f ltac:(lia)) as [E _]; rewrite E in Hin; destruct Hin].
      destruct (le_gt_dec f 10) as [Hf|Hf]; [|rewrite (H2 o f) in Hin by lia; destruct Hin].
      apply H4 in Hin; lia.
    + intro f. apply H1. lia.
  - intros o f l E. cbn. rewrite (H5 o f l E). lia.
  - exact H6.
Qed.

Ltac is_small :=
  split; [intros o f H; do 6 (destruct o as [|o]; [lia|]); split; vm_compute; reflexivity|];
  split; [intros o f H; do 11 (destruct f as [|f]; [lia|]); do 6 (destruct o as [|o]; [vm_compute; reflexivity|]); vm_compute; reflexivity|];
  split; [intros o H; do 6 (destruct o as [|o]; [lia|]); split; vm_compute; reflexivity|];
  intros o f x Ho Hf Hin; do 6 (destruct o as [|o]; [do 11 (destruct f as [|f]; [vm_compute in Hin; repeat destruct Hin as [<-|Hin]; [lia..|destruct Hin]|]); lia|]); lia.

(** object 1, with the children 2 and 3, is a child of 0; 2 and 3 refer to one another and to 4 *)
Definition family_run : list gop :=
  [OSet 1 parent (Some 0%nat); OList 1 children (AddAll (Ext [2; 3]%nat)); OList 2 friends (AddAll (Ext [3; 4]%nat)); OSet 2 note (Some 4%nat);
   OSet 3 note (Some 2%nat); OSet 3 husband (Some 2%nat)].
(** the same without 0, and without the friend outside *)
Definition small_family_run : list gop :=
  [OList 1 children (AddAll (Ext [2; 3]%nat)); OList 2 friends (Add 3%nat); OSet 2 note (Some 4%nat); OSet 3 note (Some 2%nat); OSet 3 husband (Some 2%nat)].
Definition family_attrs (o : obj) (f : feature) : option cell :=
  match o, f with 1%nat, 9%nat => Some (CPrim 7) | 2%nat, 10%nat => Some (CList 0) | _, _ => None end.
Definition family := at_state family_run family_attrs.
Definition small_family := at_state small_family_run family_attrs.
Lemma family_attrs_list o f l : family_attrs o f = Some (CList l) -> l = O /\ o = 2%nat /\ f = tags.
Proof. intro H. do 3 (destruct o as [|o]; [do 11 (destruct f as [|f]; try discriminate H); try (injection H as <-; auto); discriminate|]). discriminate. Qed.
Lemma family_good : good named create family.
Proof.
  apply small_good; [run_ok|unfold small; is_small| |].
  - intros o f l H. now apply family_attrs_list in H.
  - intros o f o' f' l H H'. apply family_attrs_list in H as (_ & -> & ->), H' as (_ & -> & ->). auto.
Qed.
Lemma small_family_good : good named create small_family.
Proof.
  apply small_good; [run_ok|unfold small; is_small| |].
  - intros o f l H. now apply family_attrs_list in H.
  - intros o f o' f' l H H'. apply family_attrs_list in H as (_ & -> & ->), H' as (_ & -> & ->). auto.
Qed.

Definition generation (o : obj) : nat := match o with 0 => 2 | 1 => 1 | _ => 0 end%nat.
Ltac child_cases := lazymatch goal with H : CopySpec.child _ _ _ ?x ?y |- _ =>
  destruct H as (f & _ & _ & _ & Hc & Hin);
  do 6 (destruct x as [|x]; [do 11 (destruct f as [|f]; [first [discriminate Hc|vm_compute in Hin; repeat destruct Hin as [<-|Hin]; [vm_compute; auto..|destruct Hin]]|]); destruct Hin|]); destruct Hin end.
Lemma family_ranked : ranked named plain (graph family) generation.
Proof. intros x y H. child_cases. Qed.
Lemma small_family_ranked X : ranked named X (graph small_family) generation.
Proof. intros x y H. child_cases. Qed.
Lemma small_family_inside x : inside named plain (graph small_family) 1 x -> x = 1%nat \/ x = 2%nat \/ x = 3%nat.
Proof.
  induction 1 as [|x y H IH Hc]; [auto|]. clear H. destruct Hc as (f & _ & _ & _ & Hf & Hin).
  destruct IH as [->|[->| ->]];
    do 11 (destruct f as [|f]; [first [discriminate Hf|vm_compute in Hin; repeat destruct Hin as [<-|Hin]; [auto..|destruct Hin]]|]); destruct Hin.
Qed.
Lemma small_family_child f y : f = children -> In y [2; 3]%nat -> child named plain (graph small_family) 1 y.
Proof. intros -> Hy. exists children. repeat split; auto. left. reflexivity. Qed.
Lemma small_family_complete : complete named plain plain_own Nat.eqb small_family 1.
Proof.
  constructor.
  - intros f Hf _ _ Hc. cbn in Hf. repeat destruct Hf as [<-|Hf]; try discriminate Hc; try (vm_compute; reflexivity). destruct Hf.
  - discriminate.
  - intros x f y Hx _ _ _ Hc Hn Hb Hy. apply small_family_inside in Hx.
    assert (K : y = 2%nat \/ y = 3%nat).
    { destruct Hx as [->|[->| ->]]; do 11 (destruct f as [|f]; [first [discriminate Hc|discriminate Hn|discriminate Hb|vm_compute in Hy; repeat destruct Hy as [<-|Hy]; [auto..|destruct Hy]]|]); destruct Hy. }
    eapply inside_child; [constructor|]. apply (small_family_child children); [reflexivity|]. cbn. intuition.
  - intros x f _ _. unfold attr_value. cbn [attrs small_family at_state]. destruct (family_attrs x f) as [[p|l]|]; auto.
    + apply Nat.eqb_refl.
    + intros p _. apply Nat.eqb_refl.
Qed.
Lemma small_family_typed : well_typed (feats named plain plain_own) (seen named plain small_family).
Proof.
  intros a f Hs _ Hf. cbn in Hf. repeat destruct Hf as [<-|Hf]; try (destruct Hf);
    try (intro Hm; first [discriminate Hm|do 6 (destruct a as [|a]; [vm_compute in Hs |- *; first [discriminate Hs|reflexivity]|]); vm_compute in Hs; discriminate Hs]);
    (do 3 (destruct a as [|a]; [vm_compute; auto|])); exact Logic.I.
Qed.
(** every number of a list that refers to objects is one of [U] *)
Definition world : list obj := [0; 1; 2; 3; 4; 5; 20; 21; 22; 23; 24]%nat.
