(** Copies: C38, C90, C91. *)
From Coq Require Import Permutation.
From Verif Require Import Base EqualModel EqualSpec EqualProofs ListModel GraphModel GraphSpec GraphRun CopyModel CopySpec CopyProofs3 CopyEqual CopyRun.

(** ** C90: what Copy and CopyAll do, for objects of generated classes *)
(** [alloc]: the factories; [visit]: the order in which Go visits a map; [rank]: containment has no circle;
    [fuel]: any number that is large enough.  Neither call panics. *)
Theorem C90_copy_exact : forall M X alloc, wf_metamodel M -> factory M alloc -> features_listed M X ->
  forall s rank visit fuel o, good M alloc s -> ranked M X (graph s) rank -> (forall l, Permutation (visit l) l) -> ~ is_new alloc s o -> (rank o < fuel)%nat ->
  exists s' c phi, Copy M X Generated alloc visit fuel s o = Done (s', c) /\ is_copy M X alloc s s' [o] phi /\ phi o = Some c.
Proof. intros M X alloc W A L s rank visit fuel o H HR. now apply Copy_ok with (rank := rank). Qed.
Print Assumptions C90_copy_exact.
Theorem C90_copy_all_exact : forall M X alloc, wf_metamodel M -> factory M alloc -> features_listed M X ->
  forall s rank visit fuel roots, good M alloc s -> ranked M X (graph s) rank -> (forall l, Permutation (visit l) l) ->
  separate M X (graph s) roots -> (forall r, In r roots -> ~ is_new alloc s r) -> (forall r, In r roots -> (rank r < fuel)%nat) ->
  exists s' cs phi, CopyAll M X Generated alloc visit fuel s roots = Done (s', cs) /\ is_copy M X alloc s s' roots phi /\ Forall2 (fun r c => phi r = Some c) roots cs.
Proof. intros M X alloc W A L s rank visit fuel roots H HR. now apply CopyAll_ok with (rank := rank). Qed.
Print Assumptions C90_copy_all_exact.

(** ** C91: such a copy equals its original *)
(** [own]: GetEStructuralFeatures; [deep]: reflect.DeepEqual on attribute values *)
Theorem C91_copy_equals : forall M X alloc own deep, wf_metamodel M -> factory M alloc -> features_listed M X -> declared M X own -> (forall p q, deep p q = deep q p) ->
  forall s rank visit fuel o s' c, good M alloc s -> ranked M X (graph s) rank -> (forall l, Permutation (visit l) l) -> ~ is_new alloc s o -> (rank o < fuel)%nat ->
  well_typed (feats M X own) (seen M X s) -> complete M X own deep s o ->
  Copy M X Generated alloc visit fuel s o = Done (s', c) ->
  forall U n, closed (seen M X s') U -> In o U -> In c U -> (length U < n)%nat ->
  exists m, Equals deep (feats M X own) (seen M X s') n (Some c) (Some o) = R true m.
Proof.
  intros M X alloc own deep W A L D Hd s rank visit fuel o s' c H HR Hv Ho Hf T Q E U n HU HoU HcU Hn.
  destruct (Copy_ok M W X alloc A L s H rank HR visit fuel o Hv Ho Hf) as (s2 & c2 & phi & E2 & C & Hphi).
  rewrite E in E2. injection E2 as <- <-.
  destruct (equals_exact deep (feats M X own) (seen M X s') Hd U HU n c o) as (r & m & Er & K); auto.
  - exact (seen_typed M W X alloc own D deep Hd s s' o phi C Q T).
  - exists m. cbn. rewrite Er. f_equal. apply K. exists (partner phi). split.
    + exact (partner_matching M W X alloc own D deep Hd s s' H o phi Ho C Q T).
    + right. now left.
Qed.
Print Assumptions C91_copy_equals.

(** ** C38 *)
Definition C38_statement : Prop :=
  forall M X K alloc own deep, wf_metamodel M -> factory M alloc -> features_listed M X -> declared M X own -> (forall p q, deep p q = deep q p) ->
  forall s rank visit fuel o s' c, good M alloc s -> ranked M X (graph s) rank -> (forall l, Permutation (visit l) l) -> ~ is_new alloc s o -> (rank o < fuel)%nat ->
  well_typed (feats M X own) (seen M X s) ->
  Copy M X K alloc visit fuel s o = Done (s', c) ->
  (forall U n, closed (seen M X s') U -> In o U -> In c U -> (length U < n)%nat ->
    exists m, Equals deep (feats M X own) (seen M X s') n (Some c) (Some o) = R true m) /\
  exists phi, phi o = Some c /\ (forall x, inside M X (graph s) o x -> exists d, phi x = Some d) /\
    (* nothing shared *)
    (forall x d, phi x = Some d -> is_new alloc s d) /\
    (forall x d f l, phi x = Some d -> attrs s' d f = Some (CList l) -> (nextList s <= l)%nat) /\
    (* the tree is a tree *)
    (forall x d p, phi x = Some d -> child M X (graph s) p x -> container (graph s') d = phi p) /\
    (* references inside the tree *)
    (forall x d f y e, phi x = Some d -> In f (features M x) -> attribute X f = false -> isContainer M f = false -> phi y = Some e ->
       In y (slot (graph s) x f) -> In e (slot (graph s') d f)).

(** true of objects of generated classes that Copy can copy entirely, for references that are not inherited *)
Theorem C38_copy_partial :
  forall M X alloc own deep, wf_metamodel M -> factory M alloc -> features_listed M X -> declared M X own -> (forall p q, deep p q = deep q p) ->
  forall s rank visit fuel o s' c, good M alloc s -> ranked M X (graph s) rank -> (forall l, Permutation (visit l) l) -> ~ is_new alloc s o -> (rank o < fuel)%nat ->
  well_typed (feats M X own) (seen M X s) -> complete M X own deep s o ->
  Copy M X Generated alloc visit fuel s o = Done (s', c) ->
  (forall U n, closed (seen M X s') U -> In o U -> In c U -> (length U < n)%nat ->
    exists m, Equals deep (feats M X own) (seen M X s') n (Some c) (Some o) = R true m) /\
  exists phi, phi o = Some c /\ (forall x, inside M X (graph s) o x -> exists d, phi x = Some d) /\
    (forall x d, phi x = Some d -> is_new alloc s d) /\
    (forall x d f l, phi x = Some d -> attrs s' d f = Some (CList l) -> (nextList s <= l)%nat) /\
    (forall x d p, phi x = Some d -> child M X (graph s) p x -> container (graph s') d = phi p) /\
    (forall x d f y e, phi x = Some d -> In f (ownReferences X (classOf M x)) -> copied X f = true -> attribute X f = false -> isContainer M f = false -> phi y = Some e ->
       In y (slot (graph s) x f) -> In e (slot (graph s') d f)).
Proof.
  intros M X alloc own deep W A L D Hd s rank visit fuel o s' c H HR Hv Ho Hf T Q E. split.
  - eapply (C91_copy_equals M X alloc own deep); eassumption.
  - destruct (Copy_ok M W X alloc A L s H rank HR visit fuel o Hv Ho Hf) as (s2 & c2 & phi & E2 & C & Hphi).
    rewrite E in E2. injection E2 as <- <-. exists phi. split; [exact Hphi|]. split; [|split; [|split; [|split]]].
    + intros x Hx. apply (k_domain _ _ _ _ _ _ _ C). exists o. split; [now left|assumption].
    + intros x d Hx. exact (proj1 (k_new _ _ _ _ _ _ _ C x d Hx)).
    + exact (k_lists _ _ _ _ _ _ _ C).
    + exact (k_container _ _ _ _ _ _ _ C).
    + intros x d f y e Hx Hfx Hcp Ha Hnc Hy Hin. destruct (f_cont M f) eqn:Efc.
      * destruct (L x) as (_ & _ & HL). pose proof (k_contents _ _ _ _ _ _ _ C x d f Hx (HL f Hfx) Ha Hcp Efc) as Hm.
        apply (in_map phi) in Hin. rewrite Hy, <- Hm in Hin. apply in_map_iff in Hin as (z & Ez & Hz). injection Ez as ->. assumption.
      * rewrite (k_references _ _ _ _ _ _ _ C x d f Hx Hfx Hcp Efc Hnc). unfold redirected. apply in_flat_map. exists y. split; [assumption|]. rewrite Hy. now left.
Qed.
Print Assumptions C38_copy_partial.

(** *** the example meets the hypotheses, and what its copy is *)
Example ex_copy : exists s' c phi, Copy named plain Generated create (@rev _) 2 family 1 = Done (s', c) /\ is_copy named plain create family s' [1%nat] phi /\ phi 1%nat = Some c.
Proof.
  apply (C90_copy_exact named plain create named_wf create_factory plain_listed family generation); auto.
  - exact family_good.
  - exact family_ranked.
  - intro l. apply Permutation_sym, Permutation_rev.
  - intros (k & c & _ & E). unfold create in E. discriminate.
Qed.
Definition shown (r : cres (cstate * obj)) (l : list obj) :=
  match r with
  | Done (s, c) => Some (c, map (fun o => (container (graph s) o, map (slot (graph s) o) [children; friends; friendOf; note; husband; wife], attr_value s o name, attr_value s o tags)) l)
  | _ => None
  end.
Example ex_copy_values : shown (Copy named plain Generated create (@rev _) 2 family 1) [20; 21; 22]%nat =
  Some (20, [(None, [[21; 22]; []; []; []; []; []], Some (APrim 7), None);
             (Some 20, [[]; [22]; []; [4]; []; [22]], None, Some (AList [5; 6]));
             (Some 20, [[]; []; [21]; [21]; [21]; []], None, None)])%nat.
Proof. vm_compute. reflexivity. Qed.
Example ex_copy_equals : exists s' c m, Copy named plain Generated create (fun l => l) 2 small_family 1 = Done (s', c) /\
  Equals Nat.eqb (feats named plain plain_own) (seen named plain s') 12 (Some c) (Some 1%nat) = R true m.
Proof.
  destruct (Copy named plain Generated create (fun l => l) 2 small_family 1) as [[s' c]| |] eqn:E; [|exfalso; vm_compute in E; discriminate..].
  exists s', c.
  destruct (C91_copy_equals named plain create plain_own Nat.eqb named_wf create_factory plain_listed plain_declared Nat.eqb_sym
    small_family generation (fun l => l) 2%nat 1%nat s' c) with (U := world) (n := 12%nat) as (m & Em); auto.
  - exact small_family_good.
  - exact (small_family_ranked plain).
  - intros (k & d & _ & E'). unfold create in E'. discriminate.
  - exact small_family_typed.
  - exact small_family_complete.
  - vm_compute in E. injection E as <- <-. intros a f b Ha Hb. cbn in Ha.
    repeat destruct Ha as [<-|Ha]; try (destruct Ha); do 11 (destruct f as [|f]; [vm_compute in Hb; repeat destruct Hb as [<-|Hb]; [vm_compute; tauto..|destruct Hb]|]); destruct Hb.
  - cbn. tauto.
  - vm_compute in E. injection E as <- <-. cbn. tauto.
  - exists m. split; [reflexivity|exact Em].
Qed.

(** *** where the statement fails *)
Definition said (r : cres (cstate * obj)) (X : copyInfo) (own : nat -> list feature) (deep : nat -> nat -> bool) (o : obj) : option bool :=
  match r with
  | Done (s', c) => match Equals deep (feats named X own) (seen named X s') 20 (Some c) (Some o) with R b _ => Some b | _ => None end
  | _ => None
  end.
(** a friend outside the tree is dropped, because the reference has an opposite *)
Definition friend_outside := at_state [OList 1 friends (Add 4%nat)] (fun _ _ => None).
Theorem C38_refuted_opposite_outside : said (Copy named plain Generated create (fun l => l) 2 friend_outside 1) plain plain_own Nat.eqb 1 = Some false.
Proof. vm_compute. reflexivity. Qed.
Print Assumptions C38_refuted_opposite_outside.
(** an object that has a reference to its container *)
Definition with_parent := at_state [OSet 1 parent (Some 0%nat)] (fun _ _ => None).
Theorem C38_refuted_container_reference : said (Copy named plain Generated create (fun l => l) 2 with_parent 1) plain plain_own Nat.eqb 1 = Some false.
Proof. vm_compute. reflexivity. Qed.
Print Assumptions C38_refuted_container_reference.
(** a feature that cannot be changed is not copied *)
Theorem C38_refuted_unchangeable : said (Copy named fixed_name Generated create (fun l => l) 2 small_family 1) fixed_name plain_own Nat.eqb 1 = Some false.
Proof. vm_compute. reflexivity. Qed.
Print Assumptions C38_refuted_unchangeable.
(** a value that does not equal itself (NaN, here 7) *)
Theorem C38_refuted_nan : said (Copy named plain Generated create (fun l => l) 2 small_family 1) plain plain_own (fun p q => (p =? q)%nat && negb (p =? 7)%nat) 1 = Some false.
Proof. vm_compute. reflexivity. Qed.
Print Assumptions C38_refuted_nan.
(** an inherited reference is lost, and Equals does not notice *)
Theorem C38_refuted_inherited_reference :
  said (Copy named inherited Generated create (fun l => l) 2 small_family 1) inherited inherited_own Nat.eqb 1 = Some true /\
  slot (graph small_family) 3 note = [2%nat] /\
  match Copy named inherited Generated create (fun l => l) 2 small_family 1 with Done (s', _) => slot (graph s') 22 note = [] | _ => False end.
Proof. vm_compute. auto. Qed.
Print Assumptions C38_refuted_inherited_reference.
(** dynamic objects: the children of the copy have no container, and the copy shares the list of an attribute *)
Theorem C38_refuted_dynamic :
  match Copy named plain Dynamic create (fun l => l) 2 small_family 1 with
  | Done (s', _) => slot (graph s') 20 children = [21; 22]%nat /\ container (graph s') 21 = None /\ container (graph s') 22 = None /\ attrs s' 21 tags = attrs small_family 2 tags
  | _ => False
  end.
Proof. vm_compute. auto. Qed.
Print Assumptions C38_refuted_dynamic.
(** CopyAll of an object and its container: the references inside the copy of the container go to another copy *)
Theorem C90_refuted_nested_roots :
  match CopyAll named plain Generated create (fun l => l) 2 small_family [1; 2]%nat with
  | Done (s', cs) => cs = [20; 23]%nat /\ slot (graph s') 20 children = [21; 22]%nat /\ slot (graph s') 22 note = [23]%nat
  | _ => False
  end.
Proof. vm_compute. auto. Qed.
Print Assumptions C90_refuted_nested_roots.

(** hence the statement does not hold: the example of the dynamic objects *)
Theorem C38_refuted : ~ C38_statement.
Proof.
  intro S. destruct (Copy named plain Dynamic create (fun l => l) 2 small_family 1) as [[s' c]| |] eqn:E; [|vm_compute in E; discriminate..].
  destruct (S named plain Dynamic create plain_own Nat.eqb named_wf create_factory plain_listed plain_declared Nat.eqb_sym
    small_family generation (fun l => l) 2%nat 1%nat s' c small_family_good (small_family_ranked plain)) as (_ & phi & H1 & H2 & H3 & H4 & H5 & _); auto.
  - intros (k & d & _ & E'). unfold create in E'. discriminate.
  - exact small_family_typed.
  - assert (Hc : child named plain (graph small_family) 1 2) by (apply (small_family_child children); cbn; auto).
    destruct (H2 2%nat) as (d & Hd); [eapply inside_child; [constructor|exact Hc]|].
    pose proof (H5 2%nat d 1%nat Hd Hc) as K. rewrite H1 in K. vm_compute in E. injection E as <- <-.
    destruct (H3 2%nat d Hd) as (k & e & _ & Ed). unfold create in Ed. subst d. cbn in K. discriminate.
Qed.
Print Assumptions C38_refuted.
(** and that of the inherited reference, for generated classes *)
Theorem C38_refuted_generated : exists s' c, Copy named inherited Generated create (fun l => l) 2 small_family 1 = Done (s', c) /\
  ~ exists phi, (forall x, inside named inherited (graph small_family) 1 x -> exists d, phi x = Some d) /\ (forall x d, phi x = Some d -> is_new create small_family d) /\
      forall x d f y e, phi x = Some d -> In f (features named x) -> attribute inherited f = false -> isContainer named f = false -> phi y = Some e ->
        In y (slot (graph small_family) x f) -> In e (slot (graph s') d f).
Proof.
  destruct (Copy named inherited Generated create (fun l => l) 2 small_family 1) as [[s' c]| |] eqn:E; [|exfalso; vm_compute in E; discriminate..].
  exists s', c. split; [reflexivity|]. intros (phi & H1 & H2 & H3).
  assert (Hin : forall y, In y [2; 3]%nat -> exists d, phi y = Some d).
  { intros y Hy. apply H1. eapply inside_child; [constructor|]. exists children. repeat split; auto. left. reflexivity. }
  destruct (Hin 2%nat ltac:(cbn; auto)) as (d2 & E2). destruct (Hin 3%nat ltac:(cbn; auto)) as (d3 & E3).
  assert (K : In d2 (slot (graph s') d3 note)). { apply (H3 3%nat d3 note 2%nat d2 E3); auto; [cbn; tauto|vm_compute; auto]. }
  destruct (H2 _ _ E3) as (k & e & _ & ->). unfold create in K. vm_compute in E. injection E as <- <-.
  do 3 (destruct k as [|k]; [vm_compute in K; destruct K|]). exact K.
Qed.
Print Assumptions C38_refuted_generated.
