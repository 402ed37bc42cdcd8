(** Saving and loading a resource in a SQL database: C122 and C123. *)
From Coq Require Import String Permutation.
From Verif Require Import Base Chars StrconvModel SqlSchemaModel SqlValueModel SqlDocModel SqlDocSpec SqlDocProofs SqlDocRead.
Local Open Scope string_scope.
Local Open Scope list_scope.
Local Open Scope Z_scope.

(** Node (0) extends the abstract class Named (1), which has size (0, an int whose default is 5).  Node has its
    children (1), the links next (2) to a Node and item (3) to a Named, the set of integers tags (4), and peer (5), a
    reference that is no containment and resolves no proxies. *)
Definition peer_feature : feature := mkF (lit "peer") false (Reference false false false false false) None.
Definition ex : meta Z Z := mkMeta
  (fun f => match f with
            | 0 => sfkInt | 1 => sfkObjectList | 2 | 3 => sfkObjectReference | 4 => sfkDataList
            | 5 => getSQLCodecFeatureKind peer_feature | _ => sfkTransient
            end%nat)
  (fun f => if Nat.eqb f 3 then 1%nat else 0%nat)
  (fun _ => true)
  (fun f => Nat.eqb f 0)
  (fun f => if Nat.eqb f 0 then Some 5 else None)
  (fun c => match c with 0 => [1; 2; 3; 4; 5] | 1 => [0] | _ => [] end%nat)
  (fun c => match c with 0 => [0; 1] | c => [c] end%nat)
  (fun c => Nat.eqb c 1)
  Z.of_nat (fun _ v => v) (fun _ v => Some v)
  (fun f => if Nat.eqb f 0 then Some 0 else None)
  Z.eqb.
Lemma ex_proper : proper ex.
Proof.
  split.
  - intro c. do 2 (destruct c as [|c]; [repeat constructor; cbn; intuition lia|]). repeat constructor; cbn; intuition lia.
  - intro c. do 2 (destruct c as [|c]; [repeat constructor; cbn; intuition lia|]). constructor.
  - intros c c' f. do 2 (destruct c as [|c]; [do 2 (destruct c' as [|c']; [cbn; intuition lia|]); cbn; intuition lia|]). cbn. intuition lia.
Qed.
Lemma ex_equality : exact_equality ex.
Proof. intros a b H. now apply Z.eqb_eq. Qed.

(** documents of Nodes: the values of an object, and the roots *)
Definition doc (l : list (nat * nat * list (item Z))) (ids : nat -> option str) (rs : list nat) : source Z :=
  mkSource (fun _ => O)
    (fun o f => match find (fun e => Nat.eqb (fst (fst e)) o && Nat.eqb (snd (fst e)) f) l with Some e => Some (snd e) | None => None end)
    (fun o => lit "#//@children." ++ itoa (Z.of_nat o)) ids rs.
Definition plain : options := mkOptions false false false.
Definition roundtrip (G : source Z) (O : options) : option (loaded Z * (nat -> option Z)) :=
  match save ex G O 10 with
  | Some (d, n) => match decodeFeatures ex d with Some gs => Some (load ex O d gs, n) | None => None end
  | None => None
  end.

(** ** C122: the loaded resource is the saved one *)
Definition C122_statement : Prop :=
  forall (D C : Type) (M : meta D C) (G : source D) (O : options) l, proper M -> exact_equality M ->
    (forall r, In r (roots G) -> valid M G O r) -> (forall r o, In r (roots G) -> reach M G O r o -> In o l) ->
    exists fuel d n gs, save M G O fuel = Some (d, n) /\ decodeFeatures M d = Some gs /\ exactly_restored M G O n (load M O d gs).

(** only the first object of the contents is saved *)
Theorem C122_refuted_second_root :
  match roundtrip (doc [] (fun _ => None) [0; 1]%nat) plain with
  | Some (L, n) => l_roots L = [1] /\ n 1%nat = None
  | None => False
  end.
Proof. vm_compute. split; reflexivity. Qed.
Print Assumptions C122_refuted_second_root.

Lemma two_roots_valid r : valid ex (doc [] (fun _ => None) [0; 1]%nat) plain r.
Proof.
  intros o _ f _. unfold fits. change (intended ex (doc [] (fun _ => None) [0; 1]%nat) plain o f) with (@nil (item Z)).
  split; [cbn; lia|]. split; [intros _ x []|]. split; [intros _ x []|]. constructor.
Qed.
Theorem C122_refuted : ~ C122_statement.
Proof.
  intro H. destruct (H Z Z ex (doc [] (fun _ => None) [0; 1]%nat) plain [0; 1]%nat ex_proper ex_equality) as [fuel [d [n [gs [E [_ X]]]]]].
  - intros r _. apply two_roots_valid.
  - intros r o Hr Ho. induction Ho as [|o f x Ho IH Hf Hk Hx]; [exact Hr|destruct Hx].
  - destruct fuel as [|fuel]; [discriminate E|]. destruct X as [X _ _]. cbn [load l_roots] in X.
    vm_compute in E. injection E as <- <-. inversion X as [|? ? ? ? _ Y]; subst. inversion Y.
Qed.
Print Assumptions C122_refuted.

(** an attribute that is not set, whose default is 5, is set to 0 *)
Theorem C122_refuted_unset :
  let G := doc [] (fun _ => None) [0]%nat in
  value G 0 0 = None /\ fdefault ex 0 = Some 5 /\
  match roundtrip G plain with
  | Some (L, n) => l_value L 1 0 = Some [LData 0]
  | None => False
  end.
Proof. vm_compute. repeat split; reflexivity. Qed.
Print Assumptions C122_refuted_unset.

(** a link to an object of the document that comes later is loaded as a proxy *)
Theorem C122_refuted_forward :
  match roundtrip (doc [((0, 1), [IObj 1; IObj 2]); ((1, 2), [IObj 2]); ((2, 2), [IObj 1])]%nat (fun _ => None) [0]%nat) plain with
  | Some (L, n) => n 1%nat = Some 2 /\ n 2%nat = Some 3 /\
      l_value L 3 2 = Some [LObj 2] /\ l_value L 2 2 = Some [LProxy O (lit "#//@children.2")]
  | None => False
  end.
Proof. vm_compute. repeat split; reflexivity. Qed.
Print Assumptions C122_refuted_forward.

(** if the type of that link is an abstract class, nothing is loaded *)
Theorem C122_refuted_abstract :
  let G := doc [((0, 1), [IObj 1; IObj 2]); ((1, 3), [IObj 2])]%nat (fun _ => None) [0]%nat in
  save ex G plain 10 <> None /\ roundtrip G plain = None.
Proof. vm_compute. split; [discriminate|reflexivity]. Qed.
Print Assumptions C122_refuted_abstract.

(** the identifier of an object is lost when its container is saved too, and an object without identifier gets one *)
Theorem C122_refuted_identity :
  let G := doc [((0, 1), [IObj 1])]%nat (fun o => match o with O => Some (lit "a") | _ => None end) [0]%nat in
  match roundtrip G (mkOptions true true false) with
  | Some (L, n) => l_identity L 1 = None /\ l_identity L 2 = None
  | None => False
  end /\
  match roundtrip G (mkOptions true false false) with
  | Some (L, n) => l_identity L 1 = Some (lit "a") /\ l_identity L 2 = Some (lit "<nil>")
  | None => False
  end.
Proof. vm_compute. repeat split; reflexivity. Qed.
Print Assumptions C122_refuted_identity.

(** an object that is not contained, with all it contains, is copied to the database *)
Theorem C122_refuted_peer :
  ftyp peer_feature = Reference false false false false false /\
  match roundtrip (doc [((0, 5), [IObj 7]); ((7, 1), [IObj 8])]%nat (fun _ => None) [0]%nat) plain with
  | Some (L, n) => l_roots L = [1] /\ l_value L 1 5 = Some [LObj 2] /\ l_class L 2 = Some O /\ l_class L 3 = Some O
  | None => False
  end.
Proof. split; [reflexivity|]. vm_compute. repeat split; reflexivity. Qed.
Print Assumptions C122_refuted_peer.

(** ** C123: what is given back *)
(** a finite document is saved *)
Theorem C123_saved : forall (D C : Type) (M : meta D C) (G : source D) (O : options) r rest l,
  proper M -> roots G = r :: rest -> (forall o, reach M G O r o -> In o l) ->
  forall fuel, (length l <= fuel)%nat -> save M G O fuel <> None.
Proof. intros D C M G O r rest l P. exact (save_total M G O P r rest l). Qed.
Print Assumptions C123_saved.
(** and its first root is loaded, in whatever order the values of its objects are set *)
Theorem C123_loaded : forall (D C : Type) (M : meta D C) (G : source D) (O : options) r rest fuel d n,
  proper M -> roots G = r :: rest -> valid M G O r -> exact_equality M ->
  save M G O fuel = Some (d, n) -> (forall o i, n o = Some i -> i < 2 ^ 63) -> links_ok M G O n ->
  exists gs, decodeFeatures M d = Some gs /\ forall gs', Permutation gs gs' -> restored M G O r n (load M O d gs').
Proof. intros D C M G O r rest fuel d n P. exact (trip M G O P r rest fuel d n). Qed.
Print Assumptions C123_loaded.

(** a node with two children that are linked to each other, with sizes and tags *)
Definition family : source Z :=
  doc [((0, 0)%nat, [IData 7]); ((0, 1)%nat, [IObj 1; IObj 2]); ((0, 4)%nat, [IData 3; IData 1; IData 2]);
       ((1, 2)%nat, [IObj 2]); ((2, 2)%nat, [IObj 1]); ((2, 0)%nat, [IData 9]); ((2, 3)%nat, [IObj 2])]
    (fun o => Some (itoa (Z.of_nat o))) [0]%nat.
Definition with_id : options := mkOptions true false false.
Definition family_values (o f : nat) : list (item Z) :=
  match o, f with
  | 0%nat, 0%nat => [IData 7]
  | 0%nat, 1%nat => [IObj 1; IObj 2]
  | 0%nat, 4%nat => [IData 3; IData 1; IData 2]
  | 1%nat, 2%nat => [IObj 2]
  | 2%nat, 2%nat => [IObj 1]
  | 2%nat, 0%nat => [IData 9]
  | 2%nat, 3%nat => [IObj 2]
  | _, _ => []
  end.
Lemma family_intended o f : intended ex family with_id o f = family_values o f.
Proof.
  do 3 (destruct o as [|o]; [do 5 (destruct f as [|f]; [reflexivity|]); reflexivity|]). reflexivity.
Qed.
Lemma family_valid : valid ex family with_id 0.
Proof.
  intros o _ f _. unfold fits. rewrite family_intended.
  assert (forall l, l = [] \/ (exists v, l = [IData v] /\ f = 0%nat) \/ (exists t, l = [IObj t] /\ (f = 2%nat \/ f = 3%nat)) \/
            (l = [IObj 1; IObj 2] /\ f = 1%nat) \/ (l = [IData 3; IData 1; IData 2] /\ f = 4%nat) ->
          (single ex f -> (length l <= 1)%nat) /\
          (holds_objects ex f \/ holds_links ex f -> forall x, In x l -> exists t, x = IObj t) /\
          (holds_values ex f -> forall x, In x l -> exists d, x = IData d /\ uncell ex f (cell ex f d) = Some d) /\
          (~ single ex f -> funique ex f = true -> NoDup l)) as K.
  { unfold single, holds_values, holds_objects, holds_links.
    intros l [->|[[v [-> ->]]|[[t [-> Hf]]|[[-> ->]|[-> ->]]]]].
    - split; [cbn; lia|]. split; [intros _ x []|]. split; [intros _ x []|]. constructor.
    - split; [cbn; lia|]. split; [intros [[H|H]|[H|H]]; discriminate H|]. split; [intros _ x [<-|[]]; now exists v|repeat constructor; intros []].
    - split; [cbn; lia|]. split; [intros _ x [<-|[]]; now exists t|]. split; [|repeat constructor; intros []].
      intros [_ [H _]]. exfalso. apply H. left. now destruct Hf as [->| ->].
    - split; [intros [H _]; now destruct H|]. split; [intros _ x [<-|[<-|[]]]; eauto|]. split; [intros [H _]; exfalso; apply H; now right|].
      intros _ _. repeat constructor; cbn; intuition congruence.
    - split; [intros [_ [_ H]]; now destruct H|]. split; [intros [[H|H]|[H|H]]; discriminate H|]. split; [intros _ x [<-|[<-|[<-|[]]]]; eauto|].
      intros _ _. repeat constructor; cbn; intuition congruence. }
  apply K. clear K. do 3 (destruct o as [|o]; [do 5 (destruct f as [|f]; [cbn; eauto 10|]); cbn; eauto 10|]). cbn. auto.
Qed.
Definition family_number (o : nat) : option Z := nth o [Some 1; Some 2; Some 3] None.
Lemma family_saved : match save ex family with_id 10 with Some (_, n) => forall o, n o = family_number o | None => False end.
Proof. vm_compute. intros [|[|[|[|o]]]]; reflexivity. Qed.
Example ex_family_finite : forall o, reach ex family with_id 0 o -> In o [0; 1; 2]%nat.
Proof.
  induction 1 as [|o f x Ho IH Hf Hk Hx]; [now left|]. rewrite family_intended in Hx.
  do 3 (destruct o as [|o]; [do 5 (destruct f as [|f]; [cbn in Hx; intuition (try discriminate); match goal with H : IObj _ = IObj _ |- _ => injection H as <- end; cbn; auto|]);
    destruct Hx|]). destruct Hx.
Qed.
Example ex_family : exists d n gs, save ex family with_id 10 = Some (d, n) /\ decodeFeatures ex d = Some gs /\
  forall gs', Permutation gs gs' -> restored ex family with_id 0 n (load ex with_id d gs').
Proof.
  pose proof family_saved as H. destruct (save ex family with_id 10) as [[d n]|] eqn:E; [|destruct H].
  destruct (C123_loaded Z Z ex family with_id 0%nat [] 10 d n ex_proper eq_refl family_valid ex_equality E) as [gs [E1 E2]].
  - intros o i. rewrite H. unfold family_number. do 3 (destruct o as [|o]; [intro Q; injection Q as <-; reflexivity|]). cbn. destruct o; discriminate.
  - intros o f t _ _ _ Ht. rewrite family_intended in Ht. unfold linked. rewrite !H.
    do 3 (destruct o as [|o]; [do 5 (destruct f as [|f]; [cbn in Ht; intuition (try discriminate);
      match goal with Q : IObj _ = IObj _ |- _ => injection Q as <- end;
      first [left; eexists; eexists; split; [reflexivity|split; [reflexivity|lia]]
            |right; vm_compute; repeat split; [discriminate|..]; reflexivity]|]); destruct Ht|]). destruct Ht.
  - exists d, n, gs. auto.
Qed.
Example ex_family_values :
  match roundtrip family with_id with
  | Some (L, n) => l_roots L = [1] /\ l_value L 1 1 = Some [LObj 2; LObj 3] /\ l_value L 1 4 = Some [LData 3; LData 1; LData 2] /\
      l_value L 2 2 = Some [LProxy O (lit "#//@children.2")] /\ l_value L 3 2 = Some [LObj 2] /\ l_value L 3 3 = Some [LObj 3] /\
      l_identity L 3 = Some (lit "2") /\ l_class L 4 = None
  | None => False
  end.
Proof. vm_compute. repeat split; reflexivity. Qed.
