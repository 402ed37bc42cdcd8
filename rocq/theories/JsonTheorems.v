(** The JSON encoder: C124 and C125. *)
From Coq Require Import String.
From Verif Require Import Base Chars SqlSchemaModel JsonModel JsonSpec JsonProofs.
Local Open Scope string_scope.
Local Open Scope list_scope.

(** Node (0) has a name (0), children (1, contained), a link next (2, proxy resolving), words (3, texts) and peer (4), a
    reference that is no containment and resolves no proxies; Odd (1) has an attribute called eClass (5) *)
Definition ex_features : list feature :=
  [mkF (lit "name") false (Attribute false false (lit "string")) None;
   mkF (lit "children") false (Reference true true false true false) None;
   mkF (lit "next") false (Reference false false false true false) None;
   mkF (lit "words") false (Attribute true false (lit "string")) None;
   mkF (lit "peer") false (Reference false false false false false) None;
   mkF (lit "eClass") false (Attribute false false (lit "string")) None].
Definition ex_feature (f : nat) : feature := nth f ex_features (mkF [] true (Attribute false false []) None).
Definition ex : meta str := mkMeta
  (fun f => SqlSchemaModel.fname (ex_feature f)) (fun f => getJSONCodecFeatureKind (ex_feature f))
  (fun c => match c with 0%nat => [0; 1; 2; 3; 4]%nat | 1%nat => [5%nat] | _ => [] end)
  (fun c => match c with 0%nat => lit "m#//Node" | _ => lit "m#//Odd" end)
  (fun _ s => s).
Definition doc (cls : nat -> nat) (l : list (nat * nat * list (item str))) (ids : nat -> option str) (rs : list nat) : source str :=
  mkSource cls
    (fun o f => match find (fun e => Nat.eqb (fst (fst e)) o && Nat.eqb (snd (fst e)) f) l with Some e => Some (snd e) | None => None end)
    ids (fun o => lit "#" ++ match o with 0%nat => lit "/" | 1%nat => lit "a" | _ => lit "b" end) rs.

(** ** C124: every finite resource is written, all its objects and each of them once *)
(** two objects that know each other: the encoder never ends *)
Definition peers : source str := doc (fun _ => 0%nat) [((0, 4)%nat, [IObj 1]); ((1, 4)%nat, [IObj 0])] (fun _ => None) [0%nat].
Theorem C124_cycle_refuted :
  (forall o f, value peers o f <> None -> In o [0; 1]%nat) /\ (forall o f, fits ex peers o f) /\
  forall fuel, encodeResource ex peers [] fuel = Unfinished.
Proof.
  assert (forall o f, value peers o f = if Nat.eqb f 4 then match o with 0%nat => Some [IObj 1] | 1%nat => Some [IObj 0] | _ => None end else None) as V.
  { intros o f. do 2 (destruct o as [|o]; [do 5 (destruct f as [|f]; [reflexivity|]); reflexivity|]). cbn. now destruct (Nat.eqb f 4). }
  split; [|split].
  - intros o f H. rewrite V in H. destruct (Nat.eqb f 4); [|congruence]. destruct o as [|[|o]]; cbn; auto.
  - intros o f. unfold fits. rewrite V. destruct (Nat.eqb_spec f 4) as [->|]; [|exact Logic.I]. destruct o as [|[|o]]; cbn; eauto.
  - intro fuel. enough (forall o, (o < 2)%nat -> encodeObject ex peers [] fuel o = Unfinished) as H.
    { unfold encodeResource. cbn [roots peers doc]. rewrite H by lia. reflexivity. }
    induction fuel as [|n IH]; intros o Ho; [reflexivity|]. cbn [encodeObject].
    destruct o as [|[|o]]; [| |lia]; cbn -[encodeObject]; rewrite IH by lia; reflexivity.
Qed.
Print Assumptions C124_cycle_refuted.
(** an attribute called eClass: the member eClass is written twice *)
Theorem C124_names_refuted : exists l,
  encodeResource ex (doc (fun _ => 1%nat) [((0, 5)%nat, [IData (lit "x")])] (fun _ => None) [0%nat]) [] 1 = Written (Some (JObj l)) /\ ~ NoDup (map fst l).
Proof.
  eexists. split; [reflexivity|]. intro H. cbn in H. inversion H as [|? ? Q _]; subst. apply Q. now left.
Qed.
Print Assumptions C124_names_refuted.
(** the second root is not written; an object with a peer among its siblings is written twice *)
Theorem C124_roots_refuted :
  encodeResource ex (doc (fun _ => 0%nat) [((1, 0)%nat, [IData (lit "second")])] (fun _ => None) [0; 1]%nat) [] 1 =
    Written (Some (JObj [(lit "eClass", JStr (lit "m#//Node"))])).
Proof. reflexivity. Qed.
Print Assumptions C124_roots_refuted.
Theorem C124_twice_refuted : let node := JObj [(lit "eClass", JStr (lit "m#//Node"))] in
  encodeResource ex (doc (fun _ => 0%nat) [((0, 1)%nat, [IObj 1; IObj 2]); ((1, 4)%nat, [IObj 2])] (fun _ => None) [0%nat]) [] 3 =
    Written (Some (JObj [(lit "eClass", JStr (lit "m#//Node"));
      (lit "children", JArr [JObj [(lit "eClass", JStr (lit "m#//Node")); (lit "peer", node)]; node])])).
Proof. reflexivity. Qed.
Print Assumptions C124_twice_refuted.

(** ** C125: the JSON of the first root *)
Theorem C125_json : forall (D : Type) (M : meta D) (G : source D) (id_name : str) (rank : nat -> nat) (r : nat) rest,
  roots G = r :: rest ->
  (forall o x, below M G r o -> inside M G o x -> (rank x < rank o)%nat) ->
  (forall o f, below M G r o -> In f (features M (oclass G o)) -> fits M G o f) ->
  (forall o, below M G r o -> distinct_members M id_name (oclass G o)) ->
  forall fuel, (rank r < fuel)%nat -> exists j, encodeResource M G id_name fuel = Written (Some j) /\ describes M G id_name r j.
Proof.
  intros D M G id_name rank r rest Hr H1 H2 H3 fuel Hf.
  destruct (object_ok M G id_name rank r H1 H2 H3 fuel r (below_self _ _ _) Hf) as [j [E d]].
  exists j. unfold encodeResource. rewrite Hr, E. auto.
Qed.
Print Assumptions C125_json.

(** the kinds that C125_json is about, by the declaration of the feature; a resource without contents gives nothing *)
Theorem C125_kinds : forall f, let k := getJSONCodecFeatureKind f in
  (k = jfkTransient <-> ~ is_written f) /\
  (k = jfkData <-> is_written f /\ is_text f /\ ~ has_many f) /\
  (k = jfkDataList <-> is_written f /\ is_text f /\ has_many f) /\
  (k = jfkObject <-> is_written f /\ is_nested f /\ ~ has_many f) /\
  (k = jfkObjectList <-> is_written f /\ is_nested f /\ has_many f) /\
  (k = jfkObjectReference <-> is_written f /\ ~ is_text f /\ ~ is_nested f /\ ~ has_many f) /\
  (k = jfkObjectReferenceList <-> is_written f /\ ~ is_text f /\ ~ is_nested f /\ has_many f).
Proof.
  intros [n t y r]. unfold is_written, is_text, is_nested, has_many, getJSONCodecFeatureKind. cbn.
  destruct t, y; repeat match goal with b : bool |- _ => destruct b end; cbn; intuition congruence.
Qed.
Print Assumptions C125_kinds.
Theorem C125_empty : forall (D : Type) (M : meta D) (G : source D) id_name fuel, roots G = [] -> encodeResource M G id_name fuel = Written None.
Proof. intros D M G id_name fuel H. unfold encodeResource. now rewrite H. Qed.
Print Assumptions C125_empty.

(** a node with two children, a link between them, words and identifiers *)
Definition family : source str :=
  doc (fun _ => 0%nat) [((0, 0)%nat, [IData (lit "top")]); ((0, 1)%nat, [IObj 1; IObj 2]); ((0, 3)%nat, [IData (lit "x"); IData (lit "y")]);
       ((1, 2)%nat, [IObj 2])] (fun o => match o with 0%nat => None | 1%nat => Some (lit "a") | _ => Some (lit "b") end) [0%nat].
Lemma family_values o f : value family o f =
  match o, f with
  | 0%nat, 0%nat => Some [IData (lit "top")]
  | 0%nat, 1%nat => Some [IObj 1; IObj 2]
  | 0%nat, 3%nat => Some [IData (lit "x"); IData (lit "y")]
  | 1%nat, 2%nat => Some [IObj 2]
  | _, _ => None
  end.
Proof. do 2 (destruct o as [|o]; [do 4 (destruct f as [|f]; [reflexivity|]); reflexivity|]). reflexivity. Qed.
Example ex_family : exists j, encodeResource ex family (lit "id") 3 = Written (Some j) /\ describes ex family (lit "id") 0 j.
Proof.
  apply (C125_json str ex family (lit "id") (fun o => match o with 0%nat => 1%nat | _ => 0%nat end) 0%nat []); try reflexivity; [| | |lia].
  - intros o x _ [f [l [Hf [K [V Hx]]]]]. rewrite family_values in V.
    destruct o as [|[|o]]; [|destruct f as [|[|[|f]]]; try discriminate; cbn in K; destruct K; discriminate|discriminate].
    destruct f as [|[|[|[|f]]]]; try discriminate; injection V as <-; cbn in Hx; intuition (try discriminate);
      match goal with Q : IObj _ = IObj _ |- _ => injection Q as <- end; lia.
  - intros o f _ _. unfold fits. rewrite family_values.
    destruct o as [|[|o]]; [destruct f as [|[|[|[|f]]]]|destruct f as [|[|[|f]]]|]; cbn; auto; eauto.
    + now exists [1; 2]%nat.
    + now exists [lit "x"; lit "y"].
  - intros o _. cbn. split; [|split; [discriminate|]].
    + repeat constructor; cbn; intuition discriminate.
    + intros f Hf. cbn in Hf. intuition (subst; discriminate).
Qed.
Example ex_family_json : encodeResource ex family (lit "id") 3 = Written (Some (JObj
  [(lit "eClass", JStr (lit "m#//Node")); (lit "name", JStr (lit "top"));
   (lit "children", JArr [
     JObj [(lit "eClass", JStr (lit "m#//Node")); (lit "id", JStr (lit "a"));
           (lit "next", JObj [(lit "eClass", JStr (lit "m#//Node")); (lit "eRef", JStr (lit "#b"))])];
     JObj [(lit "eClass", JStr (lit "m#//Node")); (lit "id", JStr (lit "b"))]]);
   (lit "words", JArr [JStr (lit "x"); JStr (lit "y")])])).
Proof. reflexivity. Qed.
