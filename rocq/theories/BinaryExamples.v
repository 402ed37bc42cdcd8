(** Concrete metamodels and graphs for BinaryTheorems. *)
From Coq Require Import String.
From Verif Require Import Base Chars BinaryListModel BinaryModel BinarySpec.

(** URIs: a number and a fragment; data values are texts, converted to themselves *)
Local Open Scope string_scope.
Local Open Scope list_scope.
Local Open Scope Z_scope.
Definition uri := (nat * str)%type.
Definition uri_text (u : uri) : str := Z.of_nat (fst u) :: snd u.
Definition uri_read (s : str) : option uri := match s with z :: f => Some (Z.to_nat z, f) | [] => None end.

(** one package with the given classes *)
Definition small_env (names : list str) (features : nat -> list (feature unit)) : env str unit uri :=
  {| e_nsuri := fun _ => lit "http://net.masagroup/soft/test";
     e_puri := fun _ => Some (9%nat, []);
     e_classifiers := fun _ => (lit "Kind", None) :: combine names (map Some (seq 0 (length names)));
     e_cpackage := fun _ => 0%nat;
     e_cname := fun c => nth c names [];
     e_cfeatures := features;
     e_ustr := uri_text; e_rel := uri_text; e_unrel := uri_read;
     e_trim := fun u => (fst u, []); e_fragment := snd; e_with_fragment := fun u f => (fst u, f);
     e_conv := fun _ d => d; e_create := fun _ s => s;
     e_d_eqb := str_eqb; e_d_nil := [];
     e_get_package := fun _ _ => Some 0%nat |}.

(** a library of books: containment, an enum, a list of texts, cross references inside and outside *)
Definition library_features (c : nat) : list (feature unit) :=
  match c with
  | 0%nat => [ mkFeature (lit "name") (bfkPrim bfkString) false false tt false;
               mkFeature (lit "books") bfkObjectContainmentListProxy false true tt false;
               mkFeature (lit "best") bfkObjectProxy false false tt false ]
  | 1%nat => [ mkFeature (lit "title") (bfkPrim bfkString) false false tt false;
               mkFeature (lit "kind") bfkEnum false false tt false;
               mkFeature (lit "tags") bfkDataList false true tt false;
               mkFeature (lit "sequels") bfkObjectListProxy false true tt false;
               mkFeature (lit "owner") bfkObjectContainer true false tt false ]
  | _ => []
  end.
Definition library_env : env str unit uri := small_env [lit "Library"; lit "Book"] library_features.

Definition library_heap (x : nat) : object str uri nat :=
  match x with
  | 0%nat => mkObject 0 None (Some (Some (1%nat, []), lit "/")) None (Some 100%nat)
      (fun i => match i with
                | 0%nat => Some (VPrim (PStr (lit "city")))
                | 1%nat => Some (VObjs [Some 1%nat; Some 2%nat])
                | 2%nat => Some (VObj (Some 2%nat))
                | _ => None end)
  | 1%nat => mkObject 1 None None None (Some 101%nat)
      (fun i => match i with
                | 0%nat => Some (VPrim (PStr (lit "first")))
                | 1%nat => Some (VData (lit "novel"))
                | 2%nat => Some (VDatas [lit "old"; lit "long"])
                | 3%nat => Some (VObjs [Some 2%nat; Some 3%nat])
                | _ => None end)
  | 2%nat => mkObject 1 None None None None
      (fun i => match i with 1%nat => Some (VData (lit "novel")) | _ => None end)
  | _ => mkObject 1 (Some (7%nat, lit "//@books.0")) None None None (fun _ => None)
  end.



Lemma library_good : good library_env library_heap [0; 1; 2; 3]%nat [0]%nat.
Proof.
  assert (Hall : forall x, In x [0; 1; 2; 3]%nat -> x = 0%nat \/ x = 1%nat \/ x = 2%nat \/ x = 3%nat) by (cbn; intuition).
  assert (Hchild : forall x i z, In x [0; 1; 2; 3]%nat -> is_child library_env library_heap x i z ->
            x = 0%nat /\ i = 1%nat /\ (z = 1%nat \/ z = 2%nat)).
  { intros x i z Hx (f & v & Hf & Hk & Hv & Hz).
    destruct (Hall x Hx) as [-> | [-> | [-> | ->]]]; cbn in Hf, Hv; try discriminate.
    - destruct i as [|[|[|i]]]; cbn in Hf; try (injection Hf as <-; cbn in Hk; intuition discriminate); [|destruct i; discriminate].
      injection Hv as <-. cbn in Hz. intuition.
    - destruct i as [|[|[|[|[|i]]]]]; cbn in Hf; try (injection Hf as <-; cbn in Hk; intuition discriminate). destruct i; discriminate.
    - destruct i as [|[|[|[|[|i]]]]]; cbn in Hf; try (injection Hf as <-; cbn in Hk; intuition discriminate). destruct i; discriminate. }
  constructor.
  - intros x [<-|[]]. cbn; auto.
  - repeat constructor; intros [].
  - intros x i v z Hx Hv Hz. destruct (Hall x Hx) as [-> | [-> | [-> | ->]]]; cbn in Hv.
    + destruct i as [|[|[|i]]]; try discriminate; injection Hv as <-; cbn in Hz; cbn; intuition.
    + destruct i as [|[|[|[|i]]]]; try discriminate; injection Hv as <-; cbn in Hz; cbn; intuition.
    + destruct i as [|[|i]]; try discriminate; injection Hv as <-; cbn in Hz; cbn; intuition.
    + discriminate.
  - intros x Hx. assert (NoDup (map fst (e_classifiers library_env 0))).
    { cbn. repeat constructor; cbn; intuition discriminate. }
    destruct (Hall x Hx) as [-> | [-> | [-> | ->]]]; (split; [cbn; auto|assumption]).
  - intros x Hx. split; [reflexivity|]. intros u [= <-]. reflexivity.
  - intros x Hx. destruct (Hall x Hx) as [-> | [-> | [-> | ->]]];
      (split; [cbn; repeat constructor; cbn; intuition discriminate
              |intros f Hf; cbn in Hf; repeat (destruct Hf as [<-|Hf]; [discriminate|]); destruct Hf]).
  - intros [a f] [b g]. cbn. unfold uri_text. cbn. intros [= H1 H2]. apply Nat2Z.inj in H1. congruence.
  - intros [a f]. reflexivity.
  - intros x [a f] _ _. unfold uri_ok. cbn. now rewrite Nat2Z.id.
  - intros x u f Hx. destruct (Hall x Hx) as [-> | [-> | [-> | ->]]]; cbn; try discriminate.
    intros [= <- <-]. eexists. split; [reflexivity|]. reflexivity.
  - intros x u f Hx. destruct (Hall x Hx) as [-> | [-> | [-> | ->]]]; cbn; discriminate.
  - intros x i v f Hx. destruct (Hall x Hx) as [-> | [-> | [-> | ->]]]; cbn; try discriminate.
    + destruct i as [|[|[|i]]]; try discriminate; intros [= <-] [= <-]; cbn; auto.
      split; [reflexivity|]. intros _. repeat constructor; cbn; intuition discriminate.
    + destruct i as [|[|[|[|i]]]]; try discriminate; intros [= <-] [= <-]; cbn; auto.
      * split; [reflexivity|]. intros _. repeat constructor; cbn; intuition discriminate.
      * split; [reflexivity|]. intros _. repeat constructor; cbn; intuition discriminate.
    + destruct i as [|[|i]]; try discriminate; intros [= <-] [= <-]; cbn; auto.
  - intros x [<-|[]]. split; [reflexivity|]. split; [reflexivity|]. split.
    + intros y i Hy Hc. destruct (Hchild y i 0%nat Hy Hc) as (_ & _ & [H|H]); discriminate.
    + intros i f Hf Hk. cbn in Hf. destruct i as [|[|[|i]]]; try (injection Hf as <-; discriminate). destruct i; discriminate.
  - intros x i y j z Hx Hy H1 H2. destruct (Hchild _ _ _ Hx H1) as (-> & -> & _).
    destruct (Hchild _ _ _ Hy H2) as (-> & -> & _). auto.
  - intros a b. apply str_eqb_eq.
Qed.

(** what is read back *)
Definition library_tokens : list (token nat) :=
  match encode_resource library_env library_heap true 9 [0%nat] with Done ts => ts | _ => [] end.
Definition library_copy := decode_resource library_env library_tokens.

(** *** a feature without a name *)
Definition unnamed_env : env str unit uri :=
  small_env [lit "A"] (fun _ => [mkFeature [] (bfkPrim bfkString) false false tt false]).
Definition unnamed_heap (x : nat) : object str uri nat :=
  mkObject 0 None None None None (fun i => match i with 0%nat => Some (VPrim (PStr (lit "x"))) | _ => None end).

(** *** a proxy held by a reference that does not resolve proxies *)
Definition plain_env : env str unit uri :=
  small_env [lit "A"] (fun _ => [mkFeature (lit "ref") bfkObject false false tt false]).
Definition plain_heap (x : nat) : object str uri nat :=
  match x with
  | 0%nat => mkObject 0 None None None None (fun i => match i with 0%nat => Some (VObj (Some 1%nat)) | _ => None end)
  | _ => mkObject 0 (Some (7%nat, lit "/")) None None None (fun _ => None)
  end.

(** *** a date with a location *)
Definition date_env : env str unit uri :=
  small_env [lit "A"] (fun _ => [mkFeature (lit "when") (bfkPrim bfkDate) false false tt false]).
Definition date_heap (x : nat) : object str uri nat :=
  mkObject 0 None None None None (fun i => match i with 0%nat => Some (VPrim (PDate 1000 3600)) | _ => None end).

(** *** an object of a resource that has no URI *)
Definition nowhere_env : env str unit uri :=
  small_env [lit "A"] (fun _ => [mkFeature (lit "ref") bfkObjectProxy false false tt false]).
Definition nowhere_heap (x : nat) : object str uri nat :=
  match x with
  | 0%nat => mkObject 0 None None None None (fun i => match i with 0%nat => Some (VObj (Some 1%nat)) | _ => None end)
  | _ => mkObject 0 None None (Some (None, lit "//@x")) None (fun _ => None)
  end.
