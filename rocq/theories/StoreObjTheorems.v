(** C157-C164: objects that keep their features in a store. *)
From Verif Require Import Base ListModel ListSpec NotifyModel StoreListModel StoreListSpec StoreObjModel StoreObjSpec
  StoreObjProofs StoreObjStores.

(** example: an attribute (0), a transient one (1), two lists (2 unique, 3 not) *)
Definition kinds (f : nat) : fkind :=
  match f with O => Single false | 1%nat => Single true | 2%nat => Many true | _ => Many false end.
Definition some_values (s f : nat) : option nat :=
  match s, f with O, O => Some 5%nat | 1%nat, O => Some 6%nat | _, _ => None end.
Definition some_lists (s f : nat) : list nat :=
  match s, f with O, 2%nat => [1; 2]%nat | 1%nat, 2%nat => [8]%nat | O, 3%nat => [4; 4]%nat | _, _ => [] end.
Definition object (cache : bool) : world nat := NewObject (Some 0%nat) cache some_values some_lists.
Definition runs := @wrun nat Nat.eqb 0%nat kinds.
Definition store_after (cache : bool) (h : list (wop nat)) (s f : nat) : option (list nat) :=
  option_map (fun w => lists w s f) (snd (runs (object cache) h)).

(** C157: switching the cache makes the object forget its list.  Two lists of the same feature follow: the element
    added with the second one is not in the first one, the element added with the first one is not in the second
    one, and the store has both. *)
Theorem C157_list_identity_refuted :
  let h := [WGet 2; WSetCache true; WGet 2; WOn 1 (L (Add 7%nat)); WOn 0 (L (Add 9%nat));
            WVia 2 (L ToArray); WOn 0 (L ToArray)] in
  fst (runs (object false) h)
  = [WList 0; WUnit; WList 1; WRes (RBool true); WRes (RBool true); WRes (RList [1; 2; 7]%nat); WRes (RList [1; 2; 9]%nat)]
  /\ store_after false h 0 2 = Some [1; 2; 9; 7]%nat.
Proof. split; vm_compute; reflexivity. Qed.
Print Assumptions C157_list_identity_refuted.

(** without a store, or while nothing switches the cache, replaces the store or unsets the feature, the list stays
    the same one *)
Theorem C157_list_identity_partial :
  forall (A : Type) (eqb : A -> A -> bool) (nilv : A) (kind : nat -> fkind) (f : nat) (unique : bool) (i : nat)
         (h : list (wop A)) (w w' : world A),
    kind f = Many unique -> list_of eqb kind nilv w f i ->
    Forall (fun o => match o with
                     | WSetCache _ | WSetEStore _ => False
                     | WSet g _ | WUnset g => g <> f
                     | _ => True
                     end) h ->
    snd (wrun eqb nilv kind w h) = Some w' -> list_of eqb kind nilv w' f i.
Proof.
  intros A eqb nilv kind f u i h. induction h as [|o h IH]; intros w w' Ek L F E; cbn in E; [now injection E as <-|].
  inversion F as [|? ? Fo Fh]; subst. destruct (wstep eqb nilv kind w o) as [[w1 x]|] eqn:S; [|discriminate].
  destruct (wrun eqb nilv kind w1 h) as [rs fin] eqn:R. cbn in E. subst fin.
  eapply (IH w1); [exact Ek| |exact Fh|now rewrite R].
  apply (list_identity eqb nilv kind w f u i o w1 x Ek L S). destruct o; cbn; tauto.
Qed.
Print Assumptions C157_list_identity_partial.

(** C158: the calls after which a feature has another list *)
Theorem C158_list_replaced_exactly :
  forall (A : Type) (eqb : A -> A -> bool) (nilv : A) (kind : nat -> fkind) (w : world A) (f : nat) (unique : bool)
         (i : nat) (o : wop A) (w' : world A) (x : wres A),
    kind f = Many unique -> list_of eqb kind nilv w f i -> wstep eqb nilv kind w o = Some (w', x) ->
    (list_of eqb kind nilv w' f i <-> ~ replaces w f o).
Proof. exact @list_identity. Qed.
Print Assumptions C158_list_replaced_exactly.

(** C159: an object with a store, its lists being read for each call on them *)
Theorem C159_object_is_a_record :
  forall (A : Type) (eqb : A -> A -> bool) (nilv : A) (kind : nat -> fkind),
    (forall x y, reflect (x = y) (eqb x y)) ->
    forall (s : nat) (cache : bool) (v : nat -> nat -> option A) (l : nat -> nat -> list A) (h : list (wop A)),
      all_allowed eqb kind (Cts (v s) (l s)) h ->
      let got := wrun eqb nilv kind (NewObject (Some s) cache v l) h in
      let expected := rec_run eqb kind (Cts (v s) (l s)) h in
      map observed (fst got) = fst expected
      /\ match snd got, snd expected with
         | Some w, Some r =>
             stores kind w s r /\ (forall t, t <> s -> values w t = v t /\ lists w t = l t)
         | None, None => True
         | _, _ => False
         end.
Proof.
  intros A eqb nilv kind eok s cache v l h H. cbn zeta.
  destruct (run_ok eqb nilv kind eok h _ s _ (ok_new kind s cache v l) H) as [R F]. split; [exact R|].
  destruct (snd (wrun _ _ _ _ _)), (snd (rec_run _ _ _ _)); try exact F. destruct F as [O T]. split; [|exact T].
  apply ok_stores, O.
Qed.
Print Assumptions C159_object_is_a_record.

(** C160: detaching *)
(** a list read before goes on writing into the store *)
Theorem C160_detached_list_writes_refuted :
  let h := [WGet 2; WSetEStore None; WVia 2 (L (Add 7%nat))] in
  fst (runs (object false) h) = [WList 0; WUnit; WRes (RBool true)]
  /\ store_after false h 0 2 = Some [1; 2; 7]%nat.
Proof. split; vm_compute; reflexivity. Qed.
Print Assumptions C160_detached_list_writes_refuted.
(** a list that was not read before is empty, a value that was not read before is lost if the object caches *)
Theorem C160_detach_loses_refuted :
  fst (runs (object false) [WSetEStore None; WVia 2 (L ToArray); WGet 0]) = [WUnit; WRes (RList []); WVal (Some 5%nat)]
  /\ fst (runs (object true) [WSetEStore None; WVia 2 (L ToArray); WGet 0]) = [WUnit; WRes (RList []); WVal None].
Proof. split; vm_compute; reflexivity. Qed.
Print Assumptions C160_detach_loses_refuted.

Section Reached.
  Context {A : Type} (eqb : A -> A -> bool) (nilv : A) (kind : nat -> fkind).
  (** a state that a new object over the store [s] comes to *)
  Definition reached (s : nat) (w : world A) : Prop :=
    exists cache v l h, all_allowed eqb kind (Cts (v s) (l s)) h
                        /\ snd (wrun eqb nilv kind (NewObject (Some s) cache v l) h) = Some w.
End Reached.
Lemma reached_ok {A} (eqb : A -> A -> bool) nilv kind (eok : forall x y, reflect (x = y) (eqb x y)) s w :
  reached eqb nilv kind s w -> exists r, ok kind w s r.
Proof.
  intros (cache & v & l & h & H & E). destruct (run_ok eqb nilv kind eok h _ s _ (ok_new kind s cache v l) H) as [_ F].
  rewrite E in F. destruct (snd (rec_run _ _ _ _)); [|contradiction]. destruct F as [F _]. eauto.
Qed.

(** the values of an object that does not cache, and the lists read before, are kept *)
Theorem C160_detach_keeps_partial :
  forall (A : Type) (eqb : A -> A -> bool) (nilv : A) (kind : nat -> fkind),
    (forall x y, reflect (x = y) (eqb x y)) ->
    forall (s : nat) (w : world A) (f : nat),
      reached eqb nilv kind s w -> wcache w = false ->
      (forall unique, kind f = Many unique -> loaded w f) ->
      shown eqb kind nilv (wSetEStore kind w None) f = shown eqb kind nilv w f.
Proof.
  intros A eqb nilv kind eok s w f R C L. destruct (reached_ok eqb nilv kind eok s w R) as [r O].
  apply (detach_exact eqb nilv kind w s r f O). destruct (kind f) as [[|]|u]; eauto.
Qed.
Print Assumptions C160_detach_keeps_partial.

(** C161: what is shown after the store is taken away or replaced *)
Theorem C161_detach_exactly :
  forall (A : Type) (eqb : A -> A -> bool) (nilv : A) (kind : nat -> fkind),
    (forall x y, reflect (x = y) (eqb x y)) ->
    forall (s : nat) (w : world A) (f : nat),
      reached eqb nilv kind s w ->
      (shown eqb kind nilv (wSetEStore kind w None) f = shown eqb kind nilv w f <->
       match kind f with
       | Single true => True
       | Single false => wcache w = false \/ loaded w f \/ nothing kind w s f
       | Many _ => loaded w f \/ nothing kind w s f
       end).
Proof.
  intros A eqb nilv kind eok s w f R. destruct (reached_ok eqb nilv kind eok s w R) as [r O].
  exact (detach_exact eqb nilv kind w s r f O).
Qed.
Print Assumptions C161_detach_exactly.

(** an object that does not cache shows the contents of its new store, in whatever state it was *)
Theorem C161_attach_uncached :
  forall (A : Type) (eqb : A -> A -> bool) (nilv : A) (kind : nat -> fkind) (w : world A) (t f : nat),
    wcache w = false -> wstore w <> Some t -> kind f <> Single true ->
    shown eqb kind nilv (wSetEStore kind w (Some t)) f = kept kind w t f.
Proof. exact @attach_uncached. Qed.
Print Assumptions C161_attach_uncached.

(** an object that caches shows what it had loaded, and the contents of its new store for the rest *)
Theorem C161_attach_cached :
  forall (A : Type) (eqb : A -> A -> bool) (nilv : A) (kind : nat -> fkind),
    (forall x y, reflect (x = y) (eqb x y)) ->
    forall (s : nat) (w : world A) (t f : nat),
      reached eqb nilv kind s w -> wcache w = true -> t <> s -> kind f <> Single true ->
      (loaded w f -> shown eqb kind nilv (wSetEStore kind w (Some t)) f = shown eqb kind nilv w f)
      /\ (~ loaded w f -> shown eqb kind nilv (wSetEStore kind w (Some t)) f = kept kind w t f).
Proof.
  intros A eqb nilv kind eok s w t f R C T NT. destruct (reached_ok eqb nilv kind eok s w R) as [r O].
  exact (attach_cached eqb nilv kind w s r t f O C T NT).
Qed.
Print Assumptions C161_attach_cached.

(** C162: the container.  Class 0 has a containment reference (10) without opposite and one (11) with the opposite
    12 of class 1; [x = 3] is of class 1, the others of class 0. *)
Definition class_of (o : nat) : nat := if (o =? 3)%nat then 1%nat else 0%nat.
Definition features_of (c : nat) : list nat := match c with O => [10; 11]%nat | 1%nat => [12]%nat | _ => [] end.
Definition opposite_of (f : nat) : option nat := match f with 11%nat => Some 12%nat | 12%nat => Some 11%nat | _ => None end.
(** the store says that the container of [x] is 5; reading the container before the store is attached, which finds
    nothing, erases that *)
Theorem C162_early_read_refuted :
  let st := fun _ : nat => (Some 5%nat, Some 10%nat) in
  snd (cGet class_of features_of opposite_of 3 (NewContained (Some 0%nat) st)) = (Some 5%nat, -1)
  /\ option_map (fun '(o, ps) => (instore o 0%nat, ps))
       (crun class_of features_of opposite_of 3 (NewContained None st) [CGet; CSetEStore (Some 0%nat); CGet])
     = Some ((None, None), [(None, -1); (None, -1)]).
Proof. split; reflexivity. Qed.
Print Assumptions C162_early_read_refuted.
(** an object detached before its container has been read has none *)
Theorem C162_detach_loses_container_refuted :
  option_map snd (crun class_of features_of opposite_of 3
                    (NewContained (Some 0%nat) (fun _ => (Some 5%nat, Some 10%nat))) [CSetEStore None; CGet])
  = Some [(None, -1)].
Proof. reflexivity. Qed.
Print Assumptions C162_detach_loses_container_refuted.
(** what is set is read back from the store by a new object *)
Theorem C162_container_read_back_partial :
  forall (classOf : nat -> nat) (allFeatures : nat -> list nat) (opposite : nat -> option nat) (x : nat),
    (forall c, NoDup (allFeatures c)) ->
    forall (o : cobject) (s : nat) (c : option nat) (id : Z),
      cstore o = Some s -> proper classOf allFeatures opposite x (c, id) ->
      exists o', cSet classOf allFeatures opposite x o c id = Some o'
        /\ snd (cGet classOf allFeatures opposite x (NewContained (Some s) (instore o'))) = (c, id).
Proof.
  intros classOf allFeatures opposite x D o s c id Hs Hp. unfold cSet. rewrite Hs.
  destruct (write_tells classOf allFeatures opposite x D (c, id) s (instore o) Hp) as (st' & E & T). cbn [fst snd] in E. rewrite E.
  eexists. split; [reflexivity|]. cbn [instore]. unfold NewContained.
  now rewrite (tells_read classOf allFeatures opposite x D s st' (c, id) (-1) T).
Qed.
Print Assumptions C162_container_read_back_partial.

(** C163: the container of an object whose store is not changed before the container is known *)
Theorem C163_container_is_a_variable :
  forall (classOf : nat -> nat) (allFeatures : nat -> list nat) (opposite : nat -> option nat) (x : nat),
    (forall c, NoDup (allFeatures c)) ->
    forall (start : option nat) (st : nat -> stored_container) (p : option nat * Z) (h : list cop),
      match start with
      | Some s => tells classOf allFeatures opposite x (st s) p
      | None => p = (None, -1)
      end ->
      careful classOf allFeatures opposite x false h ->
      exists o, crun classOf allFeatures opposite x (NewContained start st) h = Some (o, fst (var_reads p h))
        /\ forall t, cstore o = Some t ->
             snd (cGet classOf allFeatures opposite x (NewContained (Some t) (instore o))) = snd (var_reads p h).
Proof.
  intros classOf allFeatures opposite x D start st p h Hp Hh.
  assert (C : cinv classOf allFeatures opposite x false (NewContained start st) p).
  { split; [destruct start; exact Hp|reflexivity]. }
  destruct (crun_ok classOf allFeatures opposite x D h _ _ _ C Hh) as (o & E & k & I). exists o. split; [exact E|].
  intros t Ht. destruct I as [I _]. rewrite Ht in I. unfold NewContained.
  now rewrite (tells_read classOf allFeatures opposite x D t (instore o) _ (-1) I).
Qed.
Print Assumptions C163_container_is_a_variable.

(** C164: reading an empty list makes the feature set *)
Theorem C164_reading_sets_refuted :
  fst (wrun Nat.eqb 0%nat kinds (NewObject (Some 2%nat) false some_values some_lists) [WIsSet 2; WGet 2; WIsSet 2])
  = [WBool false; WList 0; WBool true].
Proof. vm_compute. reflexivity. Qed.
Print Assumptions C164_reading_sets_refuted.
Theorem C164_reading_partial :
  forall (A : Type) (eqb : A -> A -> bool) (nilv : A) (kind : nat -> fkind),
    (forall x y, reflect (x = y) (eqb x y)) ->
    forall (s : nat) (w : world A) (f g : nat),
      reached eqb nilv kind s w -> kind f = Single false -> kind g <> Single true ->
      wIsSet kind (fst (wGet kind w g)) f = wIsSet kind w f.
Proof.
  intros A eqb nilv kind eok s w f g R Ef Eg. destruct (reached_ok eqb nilv kind eok s w R) as [r O].
  destruct (get_ok eqb nilv kind w s r g O Eg) as (O' & _).
  destruct (step_ok eqb nilv kind eok w s r (WIsSet f) O Ef) as [E _].
  destruct (step_ok eqb nilv kind eok _ s r (WIsSet f) O' Ef) as [E' _]. cbn in E, E'. congruence.
Qed.
Print Assumptions C164_reading_partial.

(** *** examples *)
Definition history : list (wop nat) :=
  [WGet 0; WVia 2 (L (Add 7%nat)); WSetCache true; WSet 0 (Some 3%nat); WVia 2 (L (RemoveAt 0)); WGet 0; WIsSet 0;
   WSetCache false; WVia 3 (L (InsertAll 1 (Ext [6; 6]%nat))); WUnset 0; WGet 0; WIsSet 0; WGet 2;
   WVia 2 (L ToArray); WUnset 3; WVia 3 (L Size)].
Example history_is_allowed : all_allowed Nat.eqb kinds (Cts (some_values 0) (some_lists 0)) history.
Proof. cbn. repeat split; try discriminate. Qed.
Example history_results :
  fst (rec_run Nat.eqb kinds (Cts (some_values 0) (some_lists 0)) history)
  = [WVal (Some 5%nat); WRes (RBool true); WUnit; WUnit; WRes (RElem 1%nat); WVal (Some 3%nat); WBool true;
     WUnit; WRes (RBool true); WUnit; WVal None; WBool false; WList 0; WRes (RList [2; 7]%nat); WUnit; WRes (RInt 0)].
Proof. vm_compute. reflexivity. Qed.
Example reached_example :
  reached Nat.eqb 0%nat kinds 0 (match snd (runs (object true) [WGet 0; WVia 2 (L (Add 7%nat))]) with
                                 | Some w => w | None => object true end).
Proof.
  exists true, some_values, some_lists, [WGet 0%nat; WVia 2%nat (L (Add 7%nat))]. split; [|reflexivity].
  cbn. repeat split; discriminate.
Qed.
Example containers_distinct : forall c, NoDup (features_of c).
Proof.
  intros [|[|c]]; cbn; repeat constructor; cbn; intuition discriminate.
Qed.
Example careful_example :
  let h := [CGet; CSet (Some 6%nat) 0; CSetEStore (Some 1%nat); CGet; CSetEStore None; CSet None (-1); CGet;
            CSet (Some 7%nat) (-1); CSetEStore (Some 0%nat)] in
  careful class_of features_of opposite_of 3 false h
  /\ tells class_of features_of opposite_of 3 (Some 5%nat, Some 10%nat) (Some 5%nat, -1)
  /\ var_reads (Some 5%nat, -1) h = ([(Some 5%nat, -1); (Some 6%nat, 0); (None, -1)], (Some 7%nat, -1)).
Proof.
  cbn zeta. split; [|split; [|reflexivity]].
  - cbn. repeat split; try reflexivity.
    + exists 11%nat. right. split; [lia|]. exists 12%nat. repeat split.
    + exists 10%nat. left. repeat split; lia.
  - cbn. split; [reflexivity|]. left. repeat split; lia.
Qed.
