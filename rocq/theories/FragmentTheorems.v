(** Property theorems: fragments (C15, C41, C71-C74). *)
From Coq Require Import String.
From Verif Require Import Base Chars StrconvModel StrconvProofs FragmentModel FragmentSpec FragmentProofs.
Open Scope Z_scope.

(** Two roots 0 and 1; 0 holds 2 and 3 in the list "kids", 3 holds 4 in "one", whose name is a parameter. *)
Definition w0 (one : str) (ids : nat -> str) (m : option ((nat -> option str) * (str -> option nat))) : world :=
  mkW [0; 1]%nat (fun o => (o <? 2)%nat) (fun o => match o with 2 | 3 => Some 0 | 4 => Some 3 | _ => None end)%nat (fun o => match o with 2 | 3 => Some 0 | 4 => Some 1 | _ => None end)%nat
    (fun f => match f with O => lit "kids" | _ => one end) (fun f => match f with O => true | _ => false end) (fun _ => [0; 1]%nat)
    (fun o f => match f, o with O, O => VMany [2; 3]%nat | O, _ => VMany [] | 1%nat, 3%nat => VSingle (Some 4%nat) | _, _ => VSingle None end)
    (fun _ => false) (fun _ => []) (fun _ => Other) ids m [0; 2; 3; 4; 1]%nat (fun _ => false).
Definition no_ids (o : nat) : str := [].
Lemma w0_consistent : forall one ids m, one <> lit "kids" -> consistent (w0 one ids m).
Proof.
  intros one ids m N. constructor.
  - intros o. change ((o <? 2)%nat = true <-> In o [0; 1]%nat). rewrite Nat.ltb_lt. cbn. lia.
  - vm_compute. auto.
  - intros o c H. destruct o as [|[|[|[|[|o]]]]]; cbn in H; try discriminate; injection H as <-; eexists; (split; [reflexivity|]); (split; [cbn; auto|]); cbn.
    + eexists. split; [reflexivity|]. split; [cbn; auto|vm_compute; auto].
    + eexists. split; [reflexivity|]. split; [cbn; auto|vm_compute; auto].
    + reflexivity.
  - intros o f g [<-|[<-|[]]] [<-|[<-|[]]] H; auto; exfalso; apply N; first [exact H | symmetry; exact H].
  - intros o c _ H. discriminate.
Qed.
Lemma w0_within : forall one ids m o, (o < 5)%nat -> within (w0 one ids m) o.
Proof.
  intros one ids m o L. assert (R : within (w0 one ids m) 0) by (apply in_root; reflexivity).
  destruct o as [|[|[|[|[|o]]]]]; auto; try (apply in_root; reflexivity); try (apply in_child with 0%nat; [reflexivity|auto]); [|lia].
  apply in_child with 3%nat; [reflexivity|]. apply in_child with 0%nat; [reflexivity|auto].
Qed.

(** C15, proved part: in a consistent tree the fragment leads back to the object, when the ids of the object lead to it and the
    names on the path can be told apart from positions. Missing: the other ids and names, see below. *)
Theorem C15_round_trip_partial : forall w o, consistent w -> within w o -> has_id w o \/ addressable_path w o -> identified w o ->
  exists n s, (forall fuel, (n <= fuel)%nat -> GetURIFragment w fuel o = Done s) /\ GetEObject w s = Done (Some o).
Proof. exact fragment_ok. Qed.
Print Assumptions C15_round_trip_partial.

Example C15_round_trip_example : let w := w0 (lit "one") no_ids None in
  consistent w /\ within w 4 /\ addressable_path w 4 /\ identified w 4 /\ GetURIFragment w 5 4 = Done (lit "/0/@kids.1/@one") /\ GetEObject w (lit "/0/@kids.1/@one") = Done (Some 4%nat).
Proof.
  cbv zeta. split; [apply w0_consistent; discriminate|]. split; [apply w0_within; lia|]. split; [|split; [exact Logic.I|split; vm_compute; reflexivity]].
  assert (F : forall f, (f < 2)%nat -> fine_name (w0 (lit "one") no_ids None) f).
  { intros f L. destruct f as [|[|f]]; [| |lia]; split; try (vm_compute; intuition discriminate). }
  apply ap_child with 3%nat 1%nat; try reflexivity; [apply F; lia|]. apply ap_child with 0%nat 0%nat; try reflexivity; [apply F; lia|]. apply ap_root. reflexivity.
Qed.

(** C15 is false: an id starting with / is read as a path and leads to another object *)
Theorem C15_slash_id_refuted : exists w o s x, consistent w /\ within w o /\ (forall fuel, GetURIFragment w fuel o = Done s) /\ GetEObject w s = Done (Some x) /\ x <> o.
Proof.
  exists (w0 (lit "one") (fun o => if Nat.eqb o 1 then lit "/x" else []) None), 1%nat, (lit "/x"), 0%nat. split; [apply w0_consistent; discriminate|]. split; [apply w0_within; lia|].
  split; [intros; reflexivity|]. split; [vm_compute; reflexivity|lia].
Qed.
Print Assumptions C15_slash_id_refuted.
(** an id which is a question mark makes GetEObject panic *)
Theorem C15_question_mark_refuted : exists w o s, consistent w /\ within w o /\ (forall fuel, GetURIFragment w fuel o = Done s) /\ GetEObject w s = Panics.
Proof.
  exists (w0 (lit "one") (fun o => if Nat.eqb o 1 then lit "?" else []) None), 1%nat, (lit "?"). split; [apply w0_consistent; discriminate|]. split; [apply w0_within; lia|].
  split; [intros; reflexivity|vm_compute; reflexivity].
Qed.
Print Assumptions C15_question_mark_refuted.
(** with an id manager, the ID attribute is preferred for writing but only the manager is asked when reading *)
Theorem C15_manager_refuted : exists w o s getID find, manager w = Some (getID, find) /\ (forall x id, getID x = Some id <-> find id = Some x) /\ consistent w /\ within w o /\
  (forall fuel, GetURIFragment w fuel o = Done s) /\ GetEObject w s = Done None.
Proof.
  exists (w0 (lit "one") (fun o => if Nat.eqb o 1 then lit "me" else []) (Some (fun o => if Nat.eqb o 1 then Some (lit "1") else None, fun s => if str_eqb s (lit "1") then Some 1%nat else None))), 1%nat, (lit "me"). do 2 eexists.
  split; [reflexivity|]. split.
  { intros x id. destruct (Nat.eqb_spec x 1) as [->|N].
    - split; [intros [= <-]; reflexivity|]. destruct (str_eqb id (lit "1")) eqn:E; [apply str_eqb_eq in E; subst; auto|discriminate].
    - split; [discriminate|]. destruct (str_eqb id (lit "1")) eqn:E; [intros [= <-]; congruence|discriminate]. }
  split; [apply w0_consistent; discriminate|]. split; [apply w0_within; lia|]. split; [intros; reflexivity|vm_compute; reflexivity].
Qed.
Print Assumptions C15_manager_refuted.
(** a single-valued feature whose name ends like a position *)
Theorem C15_feature_name_refuted : exists w o s, consistent w /\ within w o /\ (forall fuel, (2 <= fuel)%nat -> GetURIFragment w fuel o = Done s) /\ GetEObject w s = Panics.
Proof.
  exists (w0 (lit "one.1") no_ids None), 4%nat, (lit "/0/@kids.1/@one.1"). split; [apply w0_consistent; discriminate|]. split; [apply w0_within; lia|].
  split; [|vm_compute; reflexivity]. intros [|[|fuel]] F; try lia. destruct fuel; vm_compute; reflexivity.
Qed.
Print Assumptions C15_feature_name_refuted.

(** C71: as C15, with the hypotheses on ids and names *)
Theorem C71_round_trip : forall w o, consistent w -> within w o -> has_id w o \/ addressable_path w o -> identified w o ->
  exists n s, (forall fuel, (n <= fuel)%nat -> GetURIFragment w fuel o = Done s) /\ GetEObject w s = Done (Some o).
Proof. exact fragment_ok. Qed.
Print Assumptions C71_round_trip.

(** so different objects have different fragments *)
Theorem C71_distinct : forall w o o' n n' s,
  consistent w -> within w o -> has_id w o \/ addressable_path w o -> identified w o ->
  within w o' -> has_id w o' \/ addressable_path w o' -> identified w o' ->
  (forall fuel, (n <= fuel)%nat -> GetURIFragment w fuel o = Done s) -> (forall fuel, (n' <= fuel)%nat -> GetURIFragment w fuel o' = Done s) -> o = o'.
Proof.
  exact (fun w o o' n n' s C W A I W' A' I' F F' =>
    match fragment_ok w o C W A I, fragment_ok w o' C W' A' I' with
    | ex_intro _ m (ex_intro _ t (conj E G)), ex_intro _ m' (ex_intro _ t' (conj E' G')) =>
        ltac:(pose proof (F (n + m)%nat ltac:(lia)) as X; pose proof (E (n + m)%nat ltac:(lia)) as Y; pose proof (F' (n' + m')%nat ltac:(lia)) as X'; pose proof (E' (n' + m')%nat ltac:(lia)) as Y'; congruence)
    end).
Qed.
Print Assumptions C71_distinct.

(** C72: an object without id which is not in the resource gets a fragment which leads to nothing *)
Theorem C72_foreign : forall w o n s, ~ has_id w o -> ~ within w o -> GetURIFragment w n o = Done s -> GetEObject w s = Done None.
Proof. exact foreign_ok. Qed.
Print Assumptions C72_foreign.

Example C72_foreign_example : let w := w0 (lit "one") no_ids None in ~ has_id w 9 /\ ~ within w 9 /\ GetURIFragment w 1 9 = Done (lit "/-1").
Proof.
  cbv zeta. split; [|split; [|reflexivity]].
  - intros [H|(g & f & i & H & _)]; [apply H; reflexivity|discriminate].
  - intros H. inversion H; discriminate.
Qed.

(** C73: the relative path of an object below another leads from that one to the object *)
Theorem C73_relative : forall w a o, consistent w -> below w a o -> o <> a ->
  exists n s, (forall fuel, (n <= fuel)%nat -> getRelativeURIFragmentPath w fuel (Some a) o = Done s) /\ GetEObjectRelative w a s = Done o.
Proof. exact relative_ok. Qed.
Print Assumptions C73_relative.

Example C73_relative_example : let w := w0 (lit "one") no_ids None in below w 0 4 /\ getRelativeURIFragmentPath w 5 (Some 0%nat) 4 = Done (lit "@kids.1/@one").
Proof.
  assert (F : forall f, (f < 2)%nat -> fine_name (w0 (lit "one") no_ids None) f).
  { intros f L. destruct f as [|[|f]]; [| |lia]; split; try (vm_compute; intuition discriminate). }
  cbv zeta. split; [|vm_compute; reflexivity]. apply bl_step with 3%nat 1%nat; try reflexivity; [discriminate|apply F; lia|]. apply bl_child with 0%nat; try reflexivity. apply F; lia.
Qed.

(** the relative path of an object to itself is empty, and following the empty path panics *)
Theorem C73_self_refuted : forall w a, model_element w a = false -> (forall fuel, getRelativeURIFragmentPath w fuel (Some a) a = Done []) /\ GetEObjectRelative w a [] = Panics.
Proof. exact relative_self. Qed.
Print Assumptions C73_self_refuted.

(** Model elements: 0 is a package holding 1, 2 and 3 with the given labels. *)
Definition w1 (labels : nat -> label) : world :=
  mkW [0]%nat (fun o => Nat.eqb o 0) (fun o => match o with 1 | 2 | 3 => Some 0 | _ => None end)%nat (fun o => match o with 1 | 2 | 3 => Some 0 | _ => None end)%nat
    (fun f => lit "kids") (fun f => true) (fun _ => [0]%nat) (fun o f => match o with O => VMany [1; 2; 3]%nat | _ => VMany [] end)
    (fun o => Nat.eqb o 0) (fun o => match o with O => [1; 2; 3]%nat | _ => [] end) labels no_ids None [0; 1; 2; 3]%nat (fun _ => false).

(** C41, proved part: names of safe characters which do not start with @ and do not end like a count, and annotations whose source
    occurs before. Missing: the other names and the first annotation with a source, see below. *)
Theorem C41_round_trip_partial : forall w c f o, In o (children w c) -> zlen (children w c) < 2 ^ 63 -> label_of w o <> Other -> model_element w c = true -> addressable w c f o ->
  exists s, EURIFragmentSegment w c f o = Done s /\ EObjectForFragmentSegment w c s = Done (Some o).
Proof. exact element_round_trip. Qed.
Print Assumptions C41_round_trip_partial.

Example C41_round_trip_example : let w := w1 (fun o => match o with 3%nat => Annotation (lit "x y") | 2%nat => Annotation (lit "x y") | _ => Named (lit "A.b") end) in
  addressable w 0 0 1 /\ addressable w 0 0 3 /\ EURIFragmentSegment w 0 0 1 = Done (lit "A.b") /\ EURIFragmentSegment w 0 0 3 = Done (lit "%x%20y%.1") /\
  EObjectForFragmentSegment w 0 (lit "%x%20y%.1") = Done (Some 3%nat).
Proof.
  cbv zeta. split; [|split; [|split; [vm_compute; reflexivity|split; vm_compute; reflexivity]]].
  - split; [reflexivity|]. split; [vm_compute; discriminate|]. intros _ a b E N. destruct a as [|x [|y [|z a]]]; try discriminate.
    + injection E as <- <-. reflexivity.
    + vm_compute in E. injection E as _ _ _ E. destruct a; discriminate.
  - split; [|vm_compute; reflexivity]. intros x H. vm_compute in H. repeat (destruct H as [<-|H]; [lia|]). destruct H.
Qed.

(** C41 is false: a name with a space is not found *)
Theorem C41_escape_refuted : exists w s, EURIFragmentSegment w 0 0 1 = Done s /\ label_of w 1 = Named (lit "a b") /\ In 1%nat (children w 0) /\ EObjectForFragmentSegment w 0 s = Done None.
Proof. exists (w1 (fun _ => Named (lit "a b"))). eexists. split; [vm_compute; reflexivity|]. split; [reflexivity|]. split; [cbn; auto|vm_compute; reflexivity]. Qed.
Print Assumptions C41_escape_refuted.
(** a name ending like a count leads to another element *)
Theorem C41_count_refuted : exists w s, EURIFragmentSegment w 0 0 1 = Done s /\ label_of w 1 = Named (lit "a.1") /\ In 1%nat (children w 0) /\ EObjectForFragmentSegment w 0 s = Done (Some 3%nat).
Proof.
  exists (w1 (fun o => match o with 1%nat => Named (lit "a.1") | _ => Named (lit "a") end)). eexists. split; [vm_compute; reflexivity|]. split; [reflexivity|]. split; [cbn; auto|vm_compute; reflexivity].
Qed.
Print Assumptions C41_count_refuted.
(** a name starting with @ panics *)
Theorem C41_at_refuted : exists w s, EURIFragmentSegment w 0 0 1 = Done s /\ label_of w 1 = Named (lit "@a") /\ In 1%nat (children w 0) /\ EObjectForFragmentSegment w 0 s = Panics.
Proof. exists (w1 (fun _ => Named (lit "@a"))). eexists. split; [vm_compute; reflexivity|]. split; [reflexivity|]. split; [cbn; auto|vm_compute; reflexivity]. Qed.
Print Assumptions C41_at_refuted.
(** the segment of the first annotation with a source always panics *)
Theorem C41_annotation_refuted : forall w c f o source, (forall x, In x source -> 0 <= x < 256) -> model_element w c = true -> label_of w o = Annotation source -> before w c o = 0 ->
  exists s, EURIFragmentSegment w c f o = Done s /\ EObjectForFragmentSegment w c s = Panics.
Proof. exact first_annotation_panics. Qed.
Print Assumptions C41_annotation_refuted.

(** C74: as C41, with the hypotheses on names, sources and siblings *)
Theorem C74_segment : forall w c f o, In o (children w c) -> zlen (children w c) < 2 ^ 63 -> label_of w o <> Other -> model_element w c = true -> addressable w c f o ->
  exists s, EURIFragmentSegment w c f o = Done s /\ EObjectForFragmentSegment w c s = Done (Some o).
Proof. exact element_round_trip. Qed.
Print Assumptions C74_segment.
