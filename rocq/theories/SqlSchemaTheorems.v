(** C31 and its refinements C81-C83: the SQL schema. *)
From Coq Require Import String.
From Verif Require Import Base Chars SqlSchemaModel SqlSchemaSpec SqlSchemaProofs3 SqlSchemaProofs4.
Local Open Scope string_scope.
Local Open Scope list_scope.
Local Open Scope Z_scope.

(** C81: on any finite metamodel, cycles included, computing the schemas of any classes in any order ends,
    and the result holds every requested class once, with the tables and columns described by [expected];
    no column refers to a class without a table. *)
Theorem C81_schema_is_computed :
  forall ifne ic oidn class_name class_features all n cs,
    closed_metamodel class_features all -> incl cs all -> (length all < n)%nat ->
    exists s, calls ifne ic oidn class_name class_features n cs [] = Computed s /\
      NoDup (map fst s) /\ incl (map fst s) all /\ incl cs (map fst s) /\
      (forall c k, In (c, k) s -> k = expected ifne class_name class_features c) /\
      (forall t col c, In t (tables s) -> In col (tcolumns t) -> reference col = Some (RClass c) -> In c (map fst s)).
Proof.
  intros ifne ic oidn class_name class_features all n cs Hall Hcs Hn.
  destruct (calls_full ifne ic oidn class_name class_features all Hall n cs Hn Hcs) as (s & H & [A B C D E] & _).
  exists s. auto 10.
Qed.
Print Assumptions C81_schema_is_computed.

(** whatever the columns of a table, its key is the last primary one, or none *)
Theorem C81_key_is_primary :
  forall name columns ifne,
    match tkey (new_table name columns ifne) with
    | Some i => exists before c after, columns = before ++ c :: after /\ length before = i /\ primary c = true /\
                                       forall c', In c' after -> primary c' = false
    | None => forall c, In c columns -> primary c = false
    end.
Proof. exact key_is_primary. Qed.
Print Assumptions C81_key_is_primary.
Example ex_second_key :
  tkey (new_table (lit "t") [attribute_column (lit "a") (lit "TEXT"); mkC (lit "b") (lit "INTEGER") true true None] false) = Some 1%nat.
Proof. reflexivity. Qed.

(** C31: the full statement, for names compared exactly *)
Definition C31_statement : Prop :=
  forall ifne ic oidn class_name class_features all n cs s,
    closed_metamodel class_features all -> incl cs all -> (length all < n)%nat ->
    calls ifne ic oidn class_name class_features n cs [] = Computed s ->
    NoDup (map tname (tables s)).

(** it is false: classes A and a; *)
Theorem C31_refuted : ~ C31_statement.
Proof.
  intro H.
  assert (N := H false false [] (fun c => match c with O => lit "A" | _ => lit "a" end) (fun _ => []) [0; 1]%nat 3%nat [0; 1]%nat
    [(1%nat, expected false (fun c => match c with O => lit "A" | _ => lit "a" end) (fun _ => []) 1);
     (0%nat, expected false (fun c => match c with O => lit "A" | _ => lit "a" end) (fun _ => []) 0)]).
  assert (E : NoDup [lit "a"; lit "a"]).
  { apply N; [intros c f _ []|intros x Hx; exact Hx|cbn; lia|vm_compute; reflexivity]. }
  inversion E as [|? ? Hin _]. apply Hin. left. reflexivity.
Qed.
Print Assumptions C31_refuted.

(** and also class A_b beside the list feature b of class A, *)
Definition list_b : feature := mkF (lit "b") false (Attribute true false (lit "string")) None.
Theorem C31_refuted_underscore :
  exists class_name class_features s,
    calls false false [] class_name class_features 3 [0; 1]%nat [] = Computed s /\
    class_name 0%nat = lit "A" /\ class_features 0%nat = [list_b] /\ class_name 1%nat = lit "A_b" /\ class_features 1%nat = [] /\
    map tname (tables s) = [lit "a_b"; lit "a"; lit "a_b"].
Proof.
  set (names := fun c : nat => match c with O => lit "A" | _ => lit "A_b" end).
  set (features := fun c : nat => match c with O => [list_b] | _ => [] end).
  exists names, features, [(1%nat, expected false names features 1); (0%nat, expected false names features 0)].
  repeat split; vm_compute; reflexivity.
Qed.
Print Assumptions C31_refuted_underscore.

(** and, as SQLite ignores case, features x and X of one class: the same list table, or the same column twice. *)
Theorem C31_refuted_features :
  exists class_features s,
    calls false false [] (fun _ => lit "A") class_features 2 [0]%nat [] = Computed s /\
    map fname (class_features 0%nat) = [lit "x"; lit "X"] /\
    same_name (tname (nth 1 (tables s) (propertiesTable false))) (tname (nth 2 (tables s) (propertiesTable false))) /\
    length (tables s) = 3%nat.
Proof.
  set (features := fun c : nat => [mkF (lit "x") false (Attribute true false (lit "string")) None;
                                   mkF (lit "X") false (Attribute true false (lit "string")) None]).
  exists features, [(0%nat, expected false (fun _ => lit "A") features 0)].
  repeat split; vm_compute; reflexivity.
Qed.
Print Assumptions C31_refuted_features.

(** C31/C82: it is true when the names keep apart: no two classes of the same name up to case, no
    underscore in the name of a class and no leading dot, no two features of a class of the same name up
    to case, none called like the key of the class, no list called idx.  Then all tables, those of the
    codec included, have different names even without case, and so have the columns of each table. *)
Theorem C31_distinct_tables_partial :
  forall ifne ic oidn class_name class_features all n cs s,
    closed_metamodel class_features all -> incl cs all -> (length all < n)%nat ->
    calls ifne ic oidn class_name class_features n cs [] = Computed s ->
    distinct_names oidn class_name class_features all ->
    NoDup (map (fun t => lower (tname t)) (internal_tables ifne ic oidn ++ tables s)).
Proof. intros. now apply (distinct_computed ifne ic oidn class_name class_features all H n cs). Qed.
Print Assumptions C31_distinct_tables_partial.

Theorem C82_distinct_columns :
  forall ifne ic oidn class_name class_features all n cs s,
    closed_metamodel class_features all -> incl cs all -> (length all < n)%nat ->
    calls ifne ic oidn class_name class_features n cs [] = Computed s ->
    distinct_names oidn class_name class_features all ->
    forall t, In t (internal_tables ifne ic oidn ++ tables s) -> NoDup (map (fun c => lower (colname c)) (tcolumns t)).
Proof. intros ifne ic oidn cn cf all n cs s Hall Hcs Hn H D t Ht. exact (proj2 (distinct_computed ifne ic oidn cn cf all Hall n cs s Hn Hcs H D) t Ht). Qed.
Print Assumptions C82_distinct_columns.

(** C83: when the names of classes and features, and the name of the object-id column, are made of word
    characters, key words or not, the text of every query is read by SQLite as the statement that is meant. *)
Section Texts.
  Context (ifne ic : bool) (oidn : str) (class_name : nat -> str) (class_features : nat -> list feature) (all : list nat) (n : nat)
          (cs : list nat) (s : schema).
  Definition plain_names : Prop :=
    (forall c, In c all -> plain (class_name c)) /\ (forall c f, In c all -> In f (class_features c) -> plain (fname f)) /\
    (oidn = [] \/ plain oidn).
End Texts.
Theorem C83_create_statement :
  forall ifne ic oidn class_name class_features all n cs s,
    closed_metamodel class_features all -> incl cs all -> (length all < n)%nat ->
    calls ifne ic oidn class_name class_features n cs [] = Computed s -> plain_names oidn class_name class_features all ->
    forall t, In t (internal_tables ifne ic oidn ++ tables s) ->
    exists q, createQuery (table_of ifne ic oidn s) t = Some q /\
              sql_tokens q = create_statement (ref_name class_name) (ref_key class_name) t.
Proof.
  intros ifne ic oidn cn cf all n cs s Hall Hcs Hn H (P1 & P2 & P3) t Ht. apply create_ok.
  exact (queries_computed ifne ic oidn cn cf all Hall n cs s Hn Hcs H P1 P2 P3 t Ht).
Qed.
Print Assumptions C83_create_statement.

Theorem C83_row_statements :
  forall ifne ic oidn class_name class_features all n cs s,
    closed_metamodel class_features all -> incl cs all -> (length all < n)%nat ->
    calls ifne ic oidn class_name class_features n cs [] = Computed s -> plain_names oidn class_name class_features all ->
    forall t, In t (internal_tables ifne ic oidn ++ tables s) ->
    (exists q, insertQuery t = Some q /\ sql_tokens q = insert_statement t) /\
    (exists q, insertOrReplaceQuery t = Some q /\ sql_tokens q = insert_or_replace_statement t) /\
    (forall columns, incl columns (map colname (tcolumns t)) ->
     exists q, selectQuery t columns [] [] = Some q /\ sql_tokens q = select_statement t columns).
Proof.
  intros ifne ic oidn cn cf all n cs s Hall Hcs Hn H (P1 & P2 & P3) t Ht.
  assert (T := queries_computed ifne ic oidn cn cf all Hall n cs s Hn Hcs H P1 P2 P3 t Ht).
  split; [exact (insert_ok _ _ _ t T)|]. split; [exact (insert_or_replace_ok _ _ _ t T)|].
  intros columns Hc. apply (select_ok _ _ _ t columns T). exact (columns_selectable _ _ _ t columns T Hc).
Qed.
Print Assumptions C83_row_statements.

(** decodeTableFeature escapes names that selectQuery escapes again: no harm *)
Theorem C83_escaping_twice_is_harmless :
  forall id q, plain id \/ (exists w, id = dot :: w /\ forallb word_char w = true) -> sqlEscapeIdentifier id = Some q ->
  exists q', sqlEscapeIdentifier q = Some q' /\ sql_tokens q' = [Id id].
Proof. exact escape_twice. Qed.
Print Assumptions C83_escaping_twice_is_harmless.

(** other names are not quoted: a class called "my class" gives another statement, and a class without a name a panic *)
Theorem C83_refuted_other_names :
  (exists q, createQuery (fun _ => None) (ctable (expected false (fun _ => lit "my class") (fun _ => []) 0)) = Some q /\
     sql_tokens q <> create_statement (fun _ => []) (fun _ => []) (ctable (expected false (fun _ => lit "my class") (fun _ => []) 0)))
  /\ createQuery (fun _ => None) (ctable (expected false (fun _ => []) (fun _ => []) 0)) = None.
Proof.
  split; [|vm_compute; reflexivity].
  exists (lit "CREATE TABLE my class (my classID INTEGER PRIMARY KEY);"). split; [vm_compute; reflexivity|].
  vm_compute. discriminate.
Qed.
Print Assumptions C83_refuted_other_names.

(** ** A metamodel with a cycle, a list, key words as names and an enumeration *)
Definition ex_name (c : nat) : str := match c with O => lit "Library" | S O => lit "Order" | _ => lit "Writer" end.
Definition ex_features (c : nat) : list feature :=
  match c with
  | O => [mkF (lit "name") false (Attribute false false (lit "string")) None;
          mkF (lit "orders") false (Reference true true false false false) (Some 1%nat)]
  | S O => [mkF (lit "index") false (Attribute false false (lit "int")) None;
            mkF (lit "kind") false (Attribute false true (lit "")) None;
            mkF (lit "owner") false (Reference false false true false true) (Some 0%nat);
            mkF (lit "author") false (Reference false false false false false) (Some 2%nat)]
  | _ => [mkF (lit "library") false (Reference false false false false false) (Some 0%nat);
          mkF (lit "tags") false (Attribute true false (lit "string")) None]
  end.
Example ex_closed : closed_metamodel ex_features [0; 1; 2]%nat.
Proof.
  intros c f Hc Hf Hn. unfold needs in Hn.
  destruct Hc as [<-|[<-|[<-|[]]]]; cbn [ex_features In] in Hf;
    repeat (destruct Hf as [<-|Hf]; [first [destruct Hn as [Hn|Hn]; vm_compute in Hn; discriminate Hn|eexists; split; [reflexivity|cbn; auto]]|]); destruct Hf.
Qed.
Example ex_computed : calls false true (lit "uuid") ex_name ex_features 4 [0; 2]%nat [] =
  Computed [(2%nat, expected false ex_name ex_features 2); (1%nat, expected false ex_name ex_features 1); (0%nat, expected false ex_name ex_features 0)].
Proof. vm_compute. reflexivity. Qed.
Example ex_distinct : distinct_names (lit "uuid") ex_name ex_features [0; 1; 2]%nat.
Proof.
  constructor.
  - intros c c' [<-|[<-|[<-|[]]]] [<-|[<-|[<-|[]]]] H; try reflexivity; vm_compute in H; discriminate H.
  - intros c [<-|[<-|[<-|[]]]]; (split; [intro H; vm_compute in H; repeat (destruct H as [H|H]; [discriminate H|]); exact H|vm_compute; discriminate]).
  - intros c [<-|[<-|[<-|[]]]]; vm_compute; repeat constructor; intro H; cbn in H; repeat (destruct H as [H|H]; [discriminate H|]); exact H.
  - intros c f [<-|[<-|[<-|[]]]] Hf; cbn [ex_features In] in Hf;
      repeat (destruct Hf as [<-|Hf]; [intro H; vm_compute in H; discriminate H|]); destruct Hf.
  - intros c f [<-|[<-|[<-|[]]]] Hf _; cbn [ex_features In] in Hf;
      repeat (destruct Hf as [<-|Hf]; [intro H; vm_compute in H; discriminate H|]); destruct Hf.
  - right. intros s Hs H. cbn [In] in Hs. repeat (destruct Hs as [<-|Hs]; [vm_compute in H; discriminate H|]). destruct Hs.
Qed.
Example ex_plain : plain_names (lit "uuid") ex_name ex_features [0; 1; 2]%nat.
Proof.
  split; [|split].
  - intros c [<-|[<-|[<-|[]]]]; (split; [discriminate|split; vm_compute; reflexivity]).
  - intros c f [<-|[<-|[<-|[]]]] Hf; cbn [ex_features In] in Hf;
      repeat (destruct Hf as [<-|Hf]; [split; [discriminate|split; vm_compute; reflexivity]|]); destruct Hf.
  - right. split; [discriminate|split; vm_compute; reflexivity].
Qed.
Example ex_text : createQuery (table_of false true (lit "uuid") [(2%nat, expected false ex_name ex_features 2)]) (ctable (expected false ex_name ex_features 1)) =
  Some (lit "CREATE TABLE ""order"" (orderID INTEGER PRIMARY KEY,""index"" INTEGER,kind INTEGER,author INTEGER,FOREIGN KEY(kind) REFERENCES "".enums""(enumID),FOREIGN KEY(author) REFERENCES writer(writerID));").
Proof. vm_compute. reflexivity. Qed.
