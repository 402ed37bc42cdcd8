(** Operations that override others: GetOverride. *)
From Verif Require Import Base OverrideModel OverrideSpec OverrideProofs.

(** *** C178: GetOverride finds an override, and finds one whenever there is one

    what it returns is an operation of the class or of one above it, declared at or below the class of the operation asked
    for, with its signature; when it returns nil, no operation of a class strictly below has the signature *)
Theorem C178_override_found (h : hierarchy) (fuel c o : nat) : owned h -> ranked h fuel ->
  exists l r, allOperations h fuel c = Some l /\ getOverride h fuel c o = Some r
  /\ (forall p, r = Some p -> In p l /\ replaces h p o)
  /\ (r = None -> forall p, In p l -> ~ replaces_below h p o).
Proof.
  intros Ow Rk. pose proof Rk as (rank & R & L). destruct (opers_total h rank R fuel c (L c)) as [l El].
  unfold getOverride. rewrite El. cbn. eexists l, _. split; [reflexivity|]. split; [reflexivity|].
  rewrite overrideMap_entry. split.
  - intros p E. destruct (entry (isOverrideOf h fuel) l o) as [q|] eqn:En; [|discriminate]. injection E as ->.
    destruct (entry_some _ _ _ _ En) as (l1 & l2 & -> & I & V). split; [apply in_or_app; right; now right|]. now apply (isOverrideOf_ok h fuel).
  - intros E p I (a & b & Ea & Eb & Ab & Sg). destruct (entry (isOverrideOf h fuel) l o) as [q|] eqn:En; [discriminate|].
    destruct (ops_below h fuel c l p El I) as (b' & B & P). apply Ow in P. assert (b' = b) by congruence. subst b'.
    destruct (before h rank R fuel c l a b o p (L c) El Ab (proj1 (Ow o a) Ea) (proj1 (Ow p b) Eb) B) as (l1 & l2 & S & I2).
    pose proof (entry_none _ _ _ En l1 l2 p S I2) as V. enough (isOverrideOf h fuel p o = true) by congruence.
    apply isOverrideOf_ok; [exact Rk|]. exists a, b. repeat split; auto; [now right|apply Sg|apply Sg].
Qed.
Print Assumptions C178_override_found.

(** class 2 below 1 below 0, each declares an operation of the same signature (operation = class number) *)
Definition ov_chain : hierarchy :=
  H (fun c => match c with 2 => [1] | 1 => [0] | _ => [] end)%nat (fun c => if (c <? 3)%nat then [c] else [])
    (fun o => if (o <? 3)%nat then Some o else None) (fun _ => 7%nat) (fun _ => [4; 5]%nat).
(** class 3 below 1 and 2, both below 0; only 0 declares an operation *)
Definition ov_diamond : hierarchy :=
  H (fun c => match c with 3 => [1; 2] | 2 => [0] | 1 => [0] | _ => [] end)%nat (fun c => match c with O => [0%nat] | _ => [] end)
    (fun o => match o with O => Some 0%nat | _ => None end) (fun _ => 7%nat) (fun _ => []).
Lemma ov_chain_ok : owned ov_chain /\ ranked ov_chain 4.
Proof.
  split.
  - intros o c. unfold ov_chain. cbn [owner opers]. split.
    + destruct (Nat.ltb_spec o 3) as [L|L]; [|discriminate]. intros [= <-]. destruct (Nat.ltb_spec o 3); [now left|lia].
    + destruct (Nat.ltb_spec c 3) as [L|L]; [|contradiction]. intros [<-|[]]. destruct (Nat.ltb_spec c 3); [reflexivity|lia].
  - exists (fun c => match c with 2 => 2 | 1 => 1 | 0 => 0 | _ => 3 end)%nat. split; [intros a [|[|[|b]]]; cbn; intuition; subst; lia|intros [|[|[|c]]]; lia].
Qed.
Lemma ov_diamond_ok : owned ov_diamond /\ ranked ov_diamond 4.
Proof.
  split.
  - intros [|o] [|c]; cbn; split; intro E; try discriminate; auto; try contradiction; destruct E as [E|[]]; discriminate.
  - exists (fun c => match c with 0 => 0 | 3 => 2 | 1 | 2 => 1 | _ => 3 end)%nat.
    split; [intros a [|[|[|[|b]]]]; cbn; intuition; subst; lia|intros [|[|[|[|c]]]]; lia].
Qed.
Example C178_case : owned ov_chain /\ ranked ov_chain 4 /\ getOverride ov_chain 4 1 0 = Some (Some 1%nat) /\ getOverride ov_chain 4 2 2 = Some None.
Proof. split; [apply ov_chain_ok|]. split; [apply ov_chain_ok|]. split; reflexivity. Qed.

(** *** C179: GetOverride returns the operation that replaces all others

    The full claim: what GetOverride returns is another operation than the one asked for, and no operation of the class
    or of those above it replaces it from a class below.  False both ways: with three classes in a row it returns the
    operation of the one in the middle; with a class reached twice it returns the operation asked for. *)
Theorem C179_most_specific_refuted :
  (exists h fuel c o p q l, owned h /\ ranked h fuel /\ allOperations h fuel c = Some l /\ getOverride h fuel c o = Some (Some p)
     /\ In q l /\ replaces_below h q p)
  /\ exists h fuel c o, owned h /\ ranked h fuel /\ getOverride h fuel c o = Some (Some o).
Proof.
  split.
  - exists ov_chain, 4%nat, 2%nat, 0%nat, 1%nat, 2%nat, [0; 1; 2]%nat. destruct ov_chain_ok as [O R]. split; [exact O|]. split; [exact R|].
    split; [reflexivity|]. split; [reflexivity|]. split; [cbn; auto|]. exists 1%nat, 2%nat. repeat split. apply above_direct. cbn. auto.
  - exists ov_diamond, 4%nat, 3%nat, 0%nat. destruct ov_diamond_ok as [O R]. split; [exact O|]. split; [exact R|]. reflexivity.
Qed.
Print Assumptions C179_most_specific_refuted.

(** true when all operations are listed once and a single other one has the signature; missing: several, and duplicates *)
Theorem C179_most_specific_partial (h : hierarchy) (fuel c o p : nat) (l : list nat) : owned h -> ranked h fuel ->
  allOperations h fuel c = Some l -> NoDup l -> In p l -> replaces_below h p o ->
  (forall q, In q l -> q <> o -> replaces h q o -> q = p) ->
  getOverride h fuel c o = Some (Some p).
Proof.
  intros Ow Rk El Nd I Rb Un. destruct (C178_override_found h fuel c o Ow Rk) as (l' & r & El' & Er & Ps & Pn).
  assert (l' = l) by congruence. subst l'. destruct r as [q|]; [|exfalso; exact (Pn eq_refl p I Rb)].
  rewrite Er. do 2 f_equal. destruct (Ps q eq_refl) as [Iq Rq]. apply Un; [exact Iq| |exact Rq]. intros ->.
  unfold getOverride in Er. rewrite El in Er. cbn in Er. rewrite overrideMap_entry in Er.
  destruct (entry (isOverrideOf h fuel) l o) as [q|] eqn:En; [|discriminate]. injection Er as ->.
  destruct (entry_some _ _ _ _ En) as (l1 & l2 & -> & I2 & _). apply NoDup_remove_2 in Nd. apply Nd. apply in_or_app. now right.
Qed.
Print Assumptions C179_most_specific_partial.

Example C179_case : allOperations ov_chain 4 1 = Some [0; 1]%nat /\ NoDup [0; 1]%nat /\ replaces_below ov_chain 1 0
  /\ forall q, In q [0; 1]%nat -> q <> 0%nat -> replaces ov_chain q 0 -> q = 1%nat.
Proof.
  split; [reflexivity|]. split; [repeat constructor; cbn; intuition discriminate|]. split; [|cbn; intuition].
  exists 0%nat, 1%nat. repeat split. apply above_direct. cbn. auto.
Qed.

(** *** C180: when all operations are listed once, GetOverride returns the first one in GetEAllOperations, after the one
    asked for, that has its signature and belongs to a class at or below *)
Theorem C180_first_after (h : hierarchy) (fuel c o : nat) (l1 l2 : list nat) : ranked h fuel ->
  allOperations h fuel c = Some (l1 ++ o :: l2) -> NoDup (l1 ++ o :: l2) ->
  exists r, getOverride h fuel c o = Some r
  /\ match r with
     | Some p => exists m1 m2, l2 = m1 ++ p :: m2 /\ replaces h p o /\ forall q, In q m1 -> ~ replaces h q o
     | None => forall q, In q l2 -> ~ replaces h q o
     end.
Proof.
  intros Rk El Nd. unfold getOverride. rewrite El. cbn. eexists. split; [reflexivity|]. rewrite overrideMap_entry, (entry_first _ _ _ _ Nd).
  clear El Nd. induction l2 as [|x l2 IH]; cbn; [contradiction|]. pose proof (isOverrideOf_ok h fuel x o Rk) as X.
  destruct (isOverrideOf h fuel x o) eqn:E.
  - exists [], l2. split; [reflexivity|]. split; [now apply X|contradiction].
  - assert (Nx : ~ replaces h x o) by (intro Y; apply X in Y; discriminate). destruct (find (fun p => isOverrideOf h fuel p o) l2) as [p|].
    + destruct IH as (m1 & m2 & -> & Y & Z). exists (x :: m1), m2. split; [reflexivity|]. split; [exact Y|]. intros q [<-|Q]; auto.
    + intros q [<-|Q]; auto.
Qed.
Print Assumptions C180_first_after.

Example C180_case : allOperations ov_chain 4 2 = Some ([] ++ 0 :: [1; 2])%nat /\ NoDup ([] ++ 0 :: [1; 2])%nat
  /\ getOverride ov_chain 4 2 0 = Some (Some 1%nat).
Proof. split; [reflexivity|]. split; [repeat constructor; cbn; intuition discriminate|reflexivity]. Qed.

(** with duplicates: the last occurrence of the operation that has an override after it counts *)
Theorem C180_duplicates (h : hierarchy) (fuel c o : nat) (l : list nat) : ranked h fuel -> allOperations h fuel c = Some l ->
  exists r, getOverride h fuel c o = Some r
  /\ match r with
     | Some p => exists l1 m1 m2, l = l1 ++ o :: m1 ++ p :: m2 /\ replaces h p o /\ (forall q, In q m1 -> ~ replaces h q o)
                 /\ forall k1 k2 q, m1 ++ p :: m2 = k1 ++ o :: k2 -> In q k2 -> ~ replaces h q o
     | None => forall l1 l2 q, l = l1 ++ o :: l2 -> In q l2 -> ~ replaces h q o
     end.
Proof.
  intros Rk El. unfold getOverride. rewrite El. cbn. eexists. split; [reflexivity|]. rewrite overrideMap_entry. clear El.
  assert (No : forall q, isOverrideOf h fuel q o = false -> ~ replaces h q o).
  { intros q E Y. apply (isOverrideOf_ok h fuel q o Rk) in Y. congruence. }
  destruct (entry (isOverrideOf h fuel) l o) as [p|] eqn:En.
  - revert En. induction l as [|x l IH]; cbn; [discriminate|]. destruct (entry (isOverrideOf h fuel) l o) as [q|] eqn:Er.
    + intro E. destruct (IH E) as (l1 & m1 & m2 & -> & X). exists (x :: l1), m1, m2. auto.
    + destruct (Nat.eqb_spec x o) as [E|N]; [|discriminate]. subst x. intro F. destruct (first_found _ _ _ F) as (m1 & m2 & -> & V & W).
      exists [], m1, m2. split; [reflexivity|]. split; [now apply (isOverrideOf_ok h fuel)|]. split; [intros q Q; apply No, W, Q|].
      intros k1 k2 q S Q. apply No. exact (entry_none _ _ _ Er k1 k2 q S Q).
  - intros l1 l2 q S Q. apply No. exact (entry_none _ _ _ En l1 l2 q S Q).
Qed.
Print Assumptions C180_duplicates.

Example C180_duplicates_case : ranked ov_diamond 4 /\ allOperations ov_diamond 4 3 = Some [0; 0]%nat /\ getOverride ov_diamond 4 3 0 = Some (Some 0%nat).
Proof. split; [apply ov_diamond_ok|]. split; reflexivity. Qed.
