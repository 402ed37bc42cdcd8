(** C01 (notifying lists), C03, C04. *)
From Verif Require Import Base ListModel ListSpec NotifyModel NotifySpec ListProofs NotifyProofs MergeProofs.

(** A notifying list has, for every history, the contents and results of the plain list of the same
    uniqueness, so every C01/C02 theorem carries over. *)
Theorem C01_notifying_list_same_as_plain :
  forall (A : Type) (eqb : A -> A -> bool) (nilv : A),
    (forall x y, reflect (x = y) (eqb x y)) ->
    forall unique (ops : list (op A)) (data : list A),
      (map fst (fst (nrun eqb nilv unique data (map (@L A) ops))),
       snd (nrun eqb nilv unique data (map (@L A) ops))) = run eqb nilv unique data ops.
Proof. exact @nrun_run. Qed.
Print Assumptions C01_notifying_list_same_as_plain.

(** C03, unique lists (all reference features): the notifications sent during any history, received by
    an observer holding the initial contents, are all truthful and leave it with the final contents. *)
Theorem C03_notifications_mirror_unique_list :
  forall (A : Type) (eqb : A -> A -> bool) (nilv : A),
    (forall x y, reflect (x = y) (eqb x y)) ->
    forall (ops : list (nop A)) (data : list A) rs fin,
      nrun eqb nilv true data ops = (rs, Some fin) ->
      observes_all (concat (map snd rs)) data fin.
Proof.
  intros A eqb nilv ok ops data rs fin. apply (nrun_observes eqb nilv ok).
  induction ops as [|[[]|?|?|? ?] ops IH]; constructor; auto; cbn; auto; destruct c; auto.
Qed.
Print Assumptions C03_notifications_mirror_unique_list.

(** C03, non-unique lists: the same, except for AddAll/InsertAll of the list to itself. *)
Theorem C03_notifications_mirror_list_partial :
  forall (A : Type) (eqb : A -> A -> bool) (nilv : A),
    (forall x y, reflect (x = y) (eqb x y)) ->
    forall unique (ops : list (nop A)) (data : list A) rs fin,
      Forall (not_self unique) ops ->
      nrun eqb nilv unique data ops = (rs, Some fin) ->
      observes_all (concat (map snd rs)) data fin.
Proof. exact @nrun_observes. Qed.
Print Assumptions C03_notifications_mirror_list_partial.

(** and for that call the statement is false: l.AddAll(l) on a non-unique attribute list reports the
    doubled contents as the elements added. *)
Theorem C03_notifications_mirror_list_refuted :
  exists (ops : list (nop nat)) data rs fin,
    nrun Nat.eqb 0%nat false data ops = (rs, Some fin)
    /\ ~ observes_all (concat (map snd rs)) data fin.
Proof.
  exists [L (AddAll Self)], [7%nat], [(RBool true, [Notif ADD_MANY PNil (PObjs [7; 7]%nat) 1])], [7; 7]%nat.
  split; [vm_compute; reflexivity|]. intro H. cbn in H.
  inversion H as [|n ns s s1 s2 H1 H2]; subst. inversion H2; subst.
  inversion H1; subst.
Qed.
Print Assumptions C03_notifications_mirror_list_refuted.

(** An observer's view is determined by what it receives. *)
Theorem C03_observer_is_deterministic :
  forall (A : Type) ns (s s1 s2 : list A), observes_all ns s s1 -> observes_all ns s s2 -> s1 = s2.
Proof. exact @observes_all_functional. Qed.
Print Assumptions C03_observer_is_deterministic.

(** C04, list features.  Missing: SETs at different positions, and a REMOVE absorbed by a REMOVE_MANY
    when it does not concern an element after all those already removed. *)
Theorem C04_merge_preserves_meaning_list_partial :
  forall (A : Type) (nilv : A) (n o m : notification A) (s s1 s2 : list A),
    observes n s s1 -> observes o s1 s2 -> merge_safe n o ->
    merge nilv n o = Some (Some m) -> observes m s s2.
Proof. exact @merge_list_correct. Qed.
Print Assumptions C04_merge_preserves_meaning_list_partial.

Theorem C04_merge_never_panics_on_consecutive_notifications :
  forall (A : Type) (nilv : A) (n o : notification A) (s s1 s2 : list A),
    observes n s s1 -> observes o s1 s2 -> merge nilv n o <> None.
Proof. exact @merge_list_no_panic. Qed.
Print Assumptions C04_merge_never_panics_on_consecutive_notifications.

(** Outside [merge_safe], an absorption by REMOVE_MANY is wrong for *every* input: the merged
    notification has one position too few and no observer can apply it. *)
Theorem C04_unsafe_removal_merge_always_wrong :
  forall (A : Type) (nilv : A) (n o m : notification A) (s s1 s2 s3 : list A),
    observes n s s1 -> observes o s1 s2 -> evt n = REMOVE_MANY -> ~ merge_safe n o ->
    merge nilv n o = Some (Some m) -> ~ observes m s s3.
Proof. exact @merge_unsafe_wrong. Qed.
Print Assumptions C04_unsafe_removal_merge_always_wrong.

(** Witness: from [a;b;c] remove positions 1,2 then position 0. *)
Theorem C04_merge_preserves_meaning_list_refuted :
  exists (n o m : notification nat) s s1 s2,
    observes n s s1 /\ observes o s1 s2 /\ merge 0%nat n o = Some (Some m) /\ ~ observes m s s2.
Proof.
  exists (Notif REMOVE_MANY (PObjs [2; 3]%nat) (PInts [1; 2]) 1),
         (Notif REMOVE (PObj 1%nat) PNil 0),
         (Notif REMOVE_MANY (PObjs [1; 2; 3]%nat) (PInts [0; 1]) 1), [1; 2; 3]%nat, [1%nat], [].
  split; [|split; [|split]].
  - apply (ObsRemoveMany [1; 2; 3]%nat [2; 3]%nat [1; 2] 1); cbn; [unfold zlen; cbn; lia|reflexivity|].
    repeat constructor.
  - apply (ObsRemove [1%nat] 1%nat 0); [lia|reflexivity].
  - vm_compute. reflexivity.
  - intro H. inversion H.
Qed.
Print Assumptions C04_merge_preserves_meaning_list_refuted.

(** Witness: two SETs of one list at positions 0 and 1 are merged into one. *)
Theorem C04_merge_set_positions_refuted :
  exists (n o m : notification nat) s s1 s2,
    observes n s s1 /\ observes o s1 s2 /\ merge 0%nat n o = Some (Some m) /\ ~ observes m s s2.
Proof.
  exists (Notif SET (PObj 1%nat) (PObj 7%nat) 0), (Notif SET (PObj 2%nat) (PObj 8%nat) 1),
         (Notif SET (PObj 1%nat) (PObj 8%nat) 0), [1; 2]%nat, [7; 2]%nat, [7; 8]%nat.
  split; [|split; [|split]].
  - apply (ObsSet [1; 2]%nat 1%nat 7%nat 0); [lia|reflexivity].
  - apply (ObsSet [7; 2]%nat 2%nat 8%nat 1); [lia|reflexivity].
  - reflexivity.
  - intro H. inversion H.
Qed.
Print Assumptions C04_merge_set_positions_refuted.

(** C04, single-valued features: value changes compose. *)
Theorem C04_merge_preserves_meaning_single :
  forall (A : Type) (nilv : A) (n o m : notification A) (v v1 v2 : payload A),
    observes1 n v v1 -> observes1 o v1 v2 -> merge nilv n o = Some (Some m) -> observes1 m v v2.
Proof. exact @merge_single_correct. Qed.
Print Assumptions C04_merge_preserves_meaning_single.

(** but "is set" is lost: SET followed by UNSET is reported as SET. *)
Theorem C04_merge_unset_refuted :
  exists (n o m : notification nat) v v1 v2,
    observes1s n v v1 /\ observes1s o v1 v2 /\ merge 0%nat n o = Some (Some m) /\ ~ observes1s m v v2.
Proof.
  exists (Notif SET (PObj 1%nat) (PObj 2%nat) (-1)), (Notif UNSET (PObj 2%nat) (PObj 0%nat) (-1)),
         (Notif SET (PObj 1%nat) (PObj 0%nat) (-1)), (PObj 1%nat, false), (PObj 2%nat, true), (PObj 0%nat, false).
  repeat split; try constructor. intro H. inversion H.
Qed.
Print Assumptions C04_merge_unset_refuted.

(** A chain absorbs a notification into *any* earlier one of the same feature, so order is lost. *)
Theorem C04_chain_preserves_meaning_refuted :
  exists (n1 n2 n3 : notification nat) chain s s1 s2 s3,
    observes n1 s s1 /\ observes n2 s1 s2 /\ observes n3 s2 s3
    /\ obind (chainAdd 0%nat [] n1) (fun c => obind (chainAdd 0%nat c n2) (fun c => chainAdd 0%nat c n3)) = Some chain
    /\ ~ observes_all chain s s3.
Proof.
  exists (Notif REMOVE (PObj 1%nat) PNil 0), (Notif ADD PNil (PObj 2%nat) 0), (Notif REMOVE (PObj 2%nat) PNil 0),
         [Notif REMOVE_MANY (PObjs [1; 2]%nat) (PInts [0; 1]) 0; Notif ADD PNil (PObj 2%nat) 0],
         [1%nat], [], [2%nat], [].
  split; [|split; [|split; [|split]]].
  - apply (ObsRemove [1%nat] 1%nat 0); [lia|reflexivity].
  - apply (ObsAdd [] 2%nat 0); unfold zlen; cbn; lia.
  - apply (ObsRemove [2%nat] 2%nat 0); [lia|reflexivity].
  - vm_compute. reflexivity.
  - intro H. inversion H as [|? ? ? ? ? H1 _]; subst. inversion H1; subst.
    match goal with Hinc : increasing _ _ _ |- _ => cbn in Hinc; unfold zlen in Hinc; cbn in Hinc; lia end.
Qed.
Print Assumptions C04_chain_preserves_meaning_refuted.

Example mirror_example :
  exists rs fin,
    nrun Nat.eqb 0%nat true [1; 2; 3]%nat
      [L (InsertAll 1 (Ext [7; 8; 9; 6]%nat)); L (Move 0 4); L (RemoveAll (Ext [9; 2]%nat)); L (RemoveRange 1 3);
       L (SetAt 0 5%nat); RemoveWithNotification 3%nat; L Clear] = (rs, Some fin)
    /\ length (concat (map snd rs)) = 7%nat.
Proof. eexists _, _. split; [vm_compute; reflexivity|reflexivity]. Qed.

Example merge_safe_example :
  exists m, merge 0%nat (Notif REMOVE_MANY (PObjs [1; 3]%nat) (PInts [0; 2]) 0) (Notif REMOVE (PObj 4%nat) PNil 1)
            = Some (Some m)
    /\ merge_safe (Notif REMOVE_MANY (PObjs [1; 3]%nat) (PInts [0; 2]) 0) (Notif REMOVE (PObj 4%nat) PNil 1)
    /\ observes m [1; 2; 3; 4]%nat [2%nat].
Proof.
  eexists. split; [vm_compute; reflexivity|]. split.
  - cbn. exists [0; 2]. split; [reflexivity|]. repeat constructor; unfold zlen; cbn; lia.
  - apply (ObsRemoveMany [1; 2; 3; 4]%nat [1; 3; 4]%nat [0; 2; 3] 0); cbn;
      [unfold zlen; cbn; lia|reflexivity|]. repeat constructor.
Qed.
