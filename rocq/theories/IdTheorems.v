(** C10, C11, C12: object ids. *)
From Verif Require Import Base IdModel IdSpec IdProofs.

(** *** C10: an id never leads to an object that does not have it, whatever the closures of the manager
    and whatever the history. *)
Theorem C10_resolution_sound_partial :
  forall (I A G P : Type) (ieqb : I -> I -> bool) (peqb : P -> P -> bool)
    (newID : G -> I * G) (isValidID : I -> bool) (getID : A -> option I) (setID : I -> G -> G) (ptr : nat -> P),
  (forall a b, reflect (a = b) (ieqb a b)) ->
  forall g h a o,
  let m := irun ieqb peqb newID isValidID getID setID ptr (New g) h in
  GetEObject getID m a = Some o -> exists i, getID a = Some i /\ GetID m o = Some i.
Proof. exact @resolves_soundly. Qed.
Print Assumptions C10_resolution_sound_partial.

(** The incremental manager: if the program never assigns an id belonging to another object, every id leads
    to the object that has it and no two objects share one. *)
Theorem C10_incremental_partial :
  forall (P : Type) (peqb : P -> P -> bool) (ptr : nat -> P),
  (forall a b, reflect (a = b) (peqb a b)) -> (forall a b, ptr a = ptr b -> a = b) ->
  forall h, no_overflow h ->
  considerate Z.eqb peqb inc_newID inc_isValidID inc_getID inc_setID ptr inc_New h ->
  let m := inc_run peqb ptr inc_New h in
  ids_resolve (GetID m) (idToObject m) /\ ids_unique (GetID m) /\ resolution_sound (GetID m) (idToObject m).
Proof.
  intros P peqb ptr Hp Hi h N C m. pose proof (incremental_good peqb ptr Hp h Hi N C) as H.
  split; [exact (proj1 (proj2 H))|]. split; [exact (good_unique ptr m H) | exact (proj1 H)].
Qed.
Print Assumptions C10_incremental_partial.

(** The UUID and ULID managers: the same, if moreover the external generator never repeats an id in use. *)
Theorem C10_random_partial :
  forall (I A P : Type) (ieqb : I -> I -> bool) (peqb : P -> P -> bool) (parse : A -> option I) (ptr : nat -> P),
  (forall a b, reflect (a = b) (ieqb a b)) -> (forall a b, reflect (a = b) (peqb a b)) ->
  (forall a b, ptr a = ptr b -> a = b) ->
  forall g h,
  considerate ieqb peqb rnd_newID (fun _ => true) parse (fun _ g => g) ptr (New g) h ->
  generator_fresh ieqb peqb rnd_newID (fun _ => true) parse (fun _ g => g) ptr (New g) h ->
  let m := rnd_run ieqb peqb parse ptr (New g) h in
  ids_resolve (GetID m) (idToObject m) /\ ids_unique (GetID m) /\ resolution_sound (GetID m) (idToObject m).
Proof.
  intros I A P ieqb peqb parse ptr Hi Hp Hj g h C F m.
  pose proof (considerate_good ieqb peqb rnd_newID (fun _ => true) parse (fun _ g => g) ptr Hi Hp Hj g h C F) as H.
  split; [exact (proj1 (proj2 H))|]. split; [exact (good_unique ptr m H) | exact (proj1 H)].
Qed.
Print Assumptions C10_random_partial.

(** The attribute-based manager: the same, if ids are kept distinct and attributes of registered objects
    change only through the manager. *)
Theorem C10_attribute_partial :
  forall (S : Type) (seqb : S -> S -> bool) (hasID : nat -> bool),
  (forall a b, reflect (a = b) (seqb a b)) ->
  forall a h m,
  oconsiderate seqb hasID (oNew a) h -> orun seqb hasID (oNew a) h = Some m ->
  ids_resolve (oGetID m) (oGetEObject m) /\ ids_unique (oGetID m) /\ resolution_sound (oGetID m) (oGetEObject m) /\
  (forall o i, oGetID m o = Some i -> attr m o = Some i).
Proof.
  intros S seqb hasID Hs a h m C R. pose proof (oconsiderate_good seqb hasID Hs a h m C R) as H.
  split; [exact (proj1 (proj2 H))|]. split; [exact (ogood_unique m H)|]. split; [exact (proj1 H) | exact (proj2 (proj2 H))].
Qed.
Print Assumptions C10_attribute_partial.

(** Without these conditions the claim is false: SetID accepts an id in use.  Afterwards two objects have
    it, and when one of them moves on, the id of the other leads nowhere. *)
Theorem C10_shared_id_refuted :
  exists h h',
    let m := inc_run Nat.eqb (fun o => o) inc_New h in
    let m' := inc_run Nat.eqb (fun o => o) inc_New h' in
    GetID m 1%nat = Some 0 /\ GetID m 2%nat = Some 0 /\ GetEObject inc_getID m (VInt 0) = Some 2%nat /\
    GetID m' 2%nat = Some 0 /\ GetEObject inc_getID m' (VInt 0) = None.
Proof.
  exists [ORegister 1%nat; OSetID 2%nat (VInt 0)], [ORegister 1%nat; OSetID 2%nat (VInt 0); OSetID 1%nat (VInt 7)].
  vm_compute. auto 10.
Qed.
Print Assumptions C10_shared_id_refuted.

(** An object registered again gets its former id back even if it was given to another one meanwhile. *)
Theorem C10_reused_detached_id_refuted :
  exists h,
    let m := inc_run Nat.eqb (fun o => o) inc_New h in
    GetID m 1%nat = Some 0 /\ GetID m 2%nat = Some 0.
Proof.
  exists [ORegister 1%nat; OUnRegister 1%nat; OSetID 2%nat (VInt 0); ORegister 1%nat]. vm_compute. auto.
Qed.
Print Assumptions C10_reused_detached_id_refuted.

(** The attribute-based manager also answers a former id after the attribute changed and the object was
    registered again. *)
Theorem C10_stale_attribute_id_refuted :
  exists h m, orun Nat.eqb (fun _ => true) (oNew (fun _ => None)) h = Some m /\
    oGetEObject m 5%nat = Some 1%nat /\ oGetID m 1%nat = Some 6%nat.
Proof.
  exists [OAttr 1%nat (Some 5%nat); OORegister 1%nat; OAttr 1%nat (Some 6%nat); OORegister 1%nat].
  eexists. split; [reflexivity|]. vm_compute. auto.
Qed.
Print Assumptions C10_stale_attribute_id_refuted.

(** *** C11: an id generated by Register was never the id of any object, and is not kept for any. *)
Theorem C11_generated_ids_are_fresh :
  forall (P : Type) (peqb : P -> P -> bool) (ptr : nat -> P),
  (forall a b, reflect (a = b) (peqb a b)) ->
  forall h o, no_overflow (h ++ [ORegister o]) ->
  GetID (inc_run peqb ptr inc_New h) o = None -> GetDetachedID ptr (inc_run peqb ptr inc_New h) o = None ->
  exists i, GetID (inc_run peqb ptr inc_New (h ++ [ORegister o])) o = Some i /\
    (forall h1 h2, h = h1 ++ h2 -> forall o',
       GetID (inc_run peqb ptr inc_New h1) o' <> Some i /\ GetDetachedID ptr (inc_run peqb ptr inc_New h1) o' <> Some i).
Proof. exact @generated_fresh. Qed.
Print Assumptions C11_generated_ids_are_fresh.

(** The int64 bound is needed: past it the counter wraps and a later SetID brings it back onto ids in use. *)
Theorem C11_overflow_refuted :
  exists h, let m := inc_run Nat.eqb (fun o => o) inc_New (h ++ [ORegister 5%nat]) in
    GetID (inc_run Nat.eqb (fun o => o) inc_New h) 5%nat = None /\
    GetID m 1%nat = Some 6 /\ GetID m 5%nat = Some 6.
Proof.
  exists [OSetID 1%nat (VInt 6); OSetID 2%nat (VInt (2 ^ 63 - 2)); ORegister 3%nat; OSetID 4%nat (VInt 5)].
  vm_compute. auto.
Qed.
Print Assumptions C11_overflow_refuted.

(** And an object that was never registered can receive the id of a former one, if it is allocated at the
    address the former one had. *)
Theorem C11_address_reuse_refuted :
  exists ptr : nat -> nat, exists h, let m := inc_run Nat.eqb ptr inc_New h in
    ~ In (ORegister 2%nat) (removelast h) /\ GetID (inc_run Nat.eqb ptr inc_New (firstn 1 h)) 1%nat = Some 0 /\
    GetID m 2%nat = Some 0.
Proof.
  exists (fun _ => O), [ORegister 1%nat; OUnRegister 1%nat; ORegister 2%nat].
  split; [|vm_compute; auto]. cbn. intros [Q|[Q|[]]]; discriminate.
Qed.
Print Assumptions C11_address_reuse_refuted.

(** *** C12: after UnRegister, whatever happens to other objects, GetDetachedID answers the former id and
    Register gives it back. *)
Theorem C12_former_id_given_back :
  forall (I A G P : Type) (ieqb : I -> I -> bool) (peqb : P -> P -> bool)
    (newID : G -> I * G) (isValidID : I -> bool) (getID : A -> option I) (setID : I -> G -> G) (ptr : nat -> P),
  (forall a b, reflect (a = b) (ieqb a b)) -> (forall a b, reflect (a = b) (peqb a b)) ->
  (forall a b, ptr a = ptr b -> a = b) ->
  forall g h0 h o i,
  GetID (irun ieqb peqb newID isValidID getID setID ptr (New g) h0) o = Some i ->
  Forall (about_others o) h ->
  let m := irun ieqb peqb newID isValidID getID setID ptr (New g) (h0 ++ OUnRegister o :: h) in
  let m' := istep ieqb peqb newID isValidID getID setID ptr m (ORegister o) in
  GetID m o = None /\ GetDetachedID ptr m o = Some i /\ GetID m' o = Some i /\
  GetEObject (fun x => Some x) m' i = Some o.
Proof. exact @given_back. Qed.
Print Assumptions C12_former_id_given_back.

(** ** Cases *)
Definition case_h : list (idop goval) :=
  [ORegister 1%nat; OSetID 2%nat (VString [52; 50]%nat); OUnRegister 1%nat; ORegister 3%nat; ORegister 1%nat;
   OSetID 3%nat VNil; OSetID 1%nat VOther].
Example C10_case_considerate :
  considerate Z.eqb Nat.eqb inc_newID inc_isValidID inc_getID inc_setID (fun o => o) inc_New case_h.
Proof.
  cbn [considerate case_h]. repeat split; try intros [|[|[|[|o']]]]; vm_compute; try discriminate; auto;
    intros Q; injection Q as <-; discriminate.
Qed.
Example C10_case_no_overflow : no_overflow case_h.
Proof.
  exists 43. split; [lia|]. split; [|reflexivity].
  intros o a i [Q|[Q|[Q|[Q|[Q|[Q|[Q|[]]]]]]]]; try discriminate; injection Q as <- <-; cbn; intro Q; try discriminate;
    injection Q as <-; lia.
Qed.
Example C10_case_ids :
  let m := inc_run Nat.eqb (fun o => o) inc_New case_h in
  (GetID m 1%nat, GetID m 2%nat, GetID m 3%nat) = (Some 0, Some 42, None) /\ gen m = 44.
Proof. vm_compute. auto. Qed.
Example C10_case_random :
  let h := [ORegister 1%nat; ORegister 2%nat; OUnRegister 1%nat; OSetID 3%nat 9%nat] in
  considerate Nat.eqb Nat.eqb rnd_newID (fun _ => true) Some (fun _ g => g) (fun o => o) (New (fun n => (2 * n)%nat)) h /\
  generator_fresh Nat.eqb Nat.eqb rnd_newID (fun _ => true) Some (fun _ g => g) (fun o => o) (New (fun n => (2 * n)%nat)) h.
Proof.
  cbn. repeat split; try discriminate; try intros [|[|[|o']]]; vm_compute; try discriminate; auto;
    intros Q; injection Q as <-; try discriminate; intros [|[|[|o']]]; vm_compute; try discriminate; auto.
Qed.
Example C10_case_attribute :
  let h := [OAttr 1%nat (Some 5%nat); OORegister 1%nat; OOSetID 1%nat (Some 6%nat); OAttr 2%nat (Some 5%nat);
            OORegister 2%nat; OOUnRegister 1%nat] in
  oconsiderate Nat.eqb (fun _ => true) (oNew (fun _ => None)) h /\
  (exists m, orun Nat.eqb (fun _ => true) (oNew (fun _ => None)) h = Some m /\
     oGetID m 2%nat = Some 5%nat /\ oGetEObject m 5%nat = Some 2%nat /\ oGetEObject m 6%nat = None).
Proof.
  split; [|eexists; split; [reflexivity|vm_compute; auto]].
  cbn. unfold ofree, oGetID. cbn. repeat split.
  - intros i _ o'; discriminate.
  - intros [|[|o']]; cbn; congruence.
  - intros i Q; injection Q as <-. intros [|[|o']]; cbn; congruence.
Qed.
Example C11_case : exists i,
  GetID (inc_run Nat.eqb (fun o => o) inc_New ([ORegister 1%nat; OSetID 2%nat (VInt 41); OClear] ++ [ORegister 3%nat])) 3%nat = Some i /\ i = 42.
Proof. exists 42. vm_compute. auto. Qed.
Example C12_case :
  GetID (inc_run Nat.eqb (fun o => o) inc_New
    [ORegister 1%nat; ORegister 2%nat; OUnRegister 1%nat; ORegister 3%nat; OSetID 2%nat (VInt 0); ORegister 1%nat]) 1%nat = Some 0.
Proof. reflexivity. Qed.
