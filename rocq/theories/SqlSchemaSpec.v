(** Specification of the SQL schema: what the tables of a class should be, when SQLite takes two names to
    be the same, and how it reads a statement.  Uses of SqlSchemaModel only the types, the classification
    of features, and ASCII case folding. *)
From Coq Require Import String.
From Verif Require Import Base Chars SqlSchemaModel.
Local Open Scope string_scope.
Local Open Scope list_scope.
Local Open Scope Z_scope.

Section Tables.
  Context (ifne isContainerID : bool) (objectIDName : str) (class_name : nat -> str) (class_features : nat -> list feature).

  Definition class_key (c : nat) : str := lower (class_name c) ++ lit "ID".

  (** the column of a single-valued feature *)
  Definition single (f : feature) : option column :=
    match getSQLCodecFeatureKind f with
    | sfkObject => Some (mkC (fname f) (lit "INTEGER") false false (option_map RClass (reftype f)))
    | sfkEnum => Some (mkC (fname f) (lit "INTEGER") false false (Some REnums))
    | sfkObjectReference | sfkDate | sfkString | sfkData => Some (mkC (fname f) (lit "TEXT") false false None)
    | sfkFloat64 | sfkFloat32 => Some (mkC (fname f) (lit "REAL") false false None)
    | sfkBool | sfkByte | sfkInt | sfkInt16 | sfkInt32 | sfkInt64 => Some (mkC (fname f) (lit "INTEGER") false false None)
    | sfkByteArray => Some (mkC (fname f) (lit "BLOB") false false None)
    | sfkTransient | sfkDataList | sfkObjectList | sfkObjectReferenceList => None
    end.

  (** the last column of the table of a many-valued feature *)
  Definition element (f : feature) : option column :=
    match getSQLCodecFeatureKind f with
    | sfkObjectList => Some (mkC (fname f) (lit "INTEGER") false false (option_map RClass (reftype f)))
    | sfkObjectReferenceList => Some (mkC (lit "uri") (lit "TEXT") false false None)
    | sfkDataList => Some (mkC (fname f) (lit "TEXT") false false None)
    | _ => None
    end.
  Definition many (c : nat) (f : feature) : option table :=
    match element f with
    | Some e => Some (mkT (lower (class_name c) ++ lit "_" ++ fname f) (Some 0%nat)
                  [ mkC (class_key c) (lit "INTEGER") false false (Some (RClass c));
                    mkC (lit "idx") (lit "REAL") false false None; e ] [[0; 1]%nat] ifne)
    | None => None
    end.

  Definition optional {X} (o : option X) : list X := match o with Some x => [x] | None => [] end.

  (** the schemas of features, [j] being the next free column *)
  Fixpoint layout (c j : nat) (fs : list feature) : list feature_schema :=
    match fs with
    | [] => []
    | f :: fs' =>
        match single f with
        | Some _ => mkFS (getSQLCodecFeatureKind f) f (Some j) None :: layout c (S j) fs'
        | None => mkFS (getSQLCodecFeatureKind f) f None (many c f) :: layout c j fs'
        end
    end.

  (** the schema of class [c] restricted to the features [fs] *)
  Definition schema_for (c : nat) (fs : list feature) : class_schema :=
    mkCS (mkT (lower (class_name c)) (Some 0%nat)
              (mkC (class_key c) (lit "INTEGER") true false None :: flat_map (fun f => optional (single f)) fs) [] ifne)
         (layout c 1 fs).
  Definition expected (c : nat) : class_schema := schema_for c (class_features c).

  (** the classes the tables of a feature refer to *)
  Definition needs (f : feature) : Prop :=
    getSQLCodecFeatureKind f = sfkObject \/ getSQLCodecFeatureKind f = sfkObjectList.

  (** a finite set of classes that has the types of its references *)
  Definition closed_metamodel (all : list nat) : Prop :=
    forall c f, In c all -> In f (class_features c) -> needs f -> exists r, reftype f = Some r /\ In r all.

  (** ** names *)
  (** SQLite compares names without case *)
  Definition same_name (a b : str) : Prop := lower a = lower b.

  Definition internal_tables : list table :=
    [propertiesTable ifne; packagesTable ifne; classesTable ifne; objectsTable ifne isContainerID objectIDName;
     contentsTable ifne; enumsTable ifne].
  Definition class_tables (c : nat) : list table :=
    ctable (expected c) :: flat_map (fun f => optional (many c f)) (class_features c).
  Definition all_tables (classes : list nat) : list table := internal_tables ++ flat_map class_tables classes.

  (** the tables of a computed schema *)
  Definition tables (s : schema) : list table :=
    flat_map (fun p => ctable (snd p) :: flat_map (fun fs => optional (ftable fs)) (cfeatures (snd p))) s.

  (** the names behind a reference *)
  Definition ref_name (r : tref) : str :=
    match r with
    | RPackages => lit ".packages" | RClasses => lit ".classes" | RObjects => lit ".objects" | REnums => lit ".enums"
    | RClass c => lower (class_name c)
    end.
  Definition ref_key (r : tref) : str :=
    match r with
    | RPackages => lit "packageID" | RClasses => lit "classID" | RObjects => lit "objectID" | REnums => lit "enumID"
    | RClass c => class_key c
    end.

  Definition underscore : Z := 95.
  Definition dot : Z := 46.

  (** names of classes and features that keep all names apart *)
  Record distinct_names (classes : list nat) : Prop := {
    dn_classes : forall c c', In c classes -> In c' classes -> same_name (class_name c) (class_name c') -> c = c';
    dn_class : forall c, In c classes -> ~ In underscore (class_name c) /\ hd 0 (class_name c) <> dot;
    dn_features : forall c, In c classes -> NoDup (map (fun f => lower (fname f)) (class_features c));
    dn_key : forall c f, In c classes -> In f (class_features c) -> ~ same_name (fname f) (class_key c);
    dn_idx : forall c f, In c classes -> In f (class_features c) -> element f <> None -> ~ same_name (fname f) (lit "idx");
    dn_object : objectIDName = lit "objectID" \/
      forall s, In s [lit "objectID"; lit "classID"; lit "containerID"; lit "containerFeatureID"] -> ~ same_name objectIDName s }.
End Tables.

(** ** how SQLite reads a statement: words, quoted names, and other characters *)
Inductive token := Kw (s : str) | Id (s : str) | Number (s : str) | P (c : Z) | Open (s : str).
Definition is_digit (c : Z) : bool := (48 <=? c) && (c <=? 57).
Definition word_char (c : Z) : bool :=
  is_digit c || ((65 <=? c) && (c <=? 90)) || ((97 <=? c) && (c <=? 122)) || (c =? 95) || (c =? 36) || (128 <=? c).
Definition is_space (c : Z) : bool := (c =? 32) || (c =? 9) || (c =? 10) || (c =? 12) || (c =? 13).
Definition quote : Z := 34.

(** keywords are recognised without case; https://www.sqlite.org/lang_keywords.html *)
Definition keyword (w : str) : bool := existsb (str_eqb (upper w)) sqliteKeyWords.
Definition word (w : str) : token :=
  match w with
  | c :: _ => if is_digit c then Number w else if keyword w then Kw (upper w) else Id w
  | [] => Id w
  end.
Inductive mode := Out | Word (acc : str) | Quoted (acc : str).
Fixpoint lex (m : mode) (s : str) : list token :=
  match s with
  | [] => match m with Out => [] | Word w => [word w] | Quoted q => [Open q] end
  | c :: s' =>
      let start :=
        if c =? quote then lex (Quoted []) s'
        else if word_char c then lex (Word [c]) s'
        else if is_space c then lex Out s'
        else P c :: lex Out s' in
      match m with
      | Out => start
      | Word w => if word_char c then lex (Word (w ++ [c])) s' else word w :: start
      | Quoted q => if c =? quote then Id q :: lex Out s' else lex (Quoted (q ++ [c])) s'
      end
  end.
Definition sql_tokens (s : str) : list token := lex Out s.

(** names that SQLite takes as they are *)
Definition plain (s : str) : Prop := s <> [] /\ forallb word_char s = true /\ is_digit (hd 0 s) = false.

(** the statements that are meant *)
Definition kw (s : string) : token := Kw (lit s).
Definition p (s : string) : token := P (hd 0 (lit s)).
Fixpoint separated {X} (sep : token) (g : X -> list token) (l : list X) : list token :=
  match l with
  | [] => []
  | [x] => g x
  | x :: l' => g x ++ sep :: separated sep g l'
  end.

Section Statements.
  Context (ref_name ref_key : tref -> str).

  Definition if_not_exists (t : table) : list token := if tifne t then [kw "IF"; kw "NOT"; kw "EXISTS"] else [].
  Definition create_column (c : column) : list token :=
    [Id (colname c); Id (coltype c)] ++
    (if primary c then kw "PRIMARY" :: kw "KEY" :: (if auto c then [kw "AUTOINCREMENT"] else []) else []).
  Definition create_constraint (c : column) : list token :=
    match reference c with
    | None => []
    | Some r => [p ","; kw "FOREIGN"; kw "KEY"; p "("; Id (colname c); p ")"; kw "REFERENCES"; Id (ref_name r); p "("; Id (ref_key r); p ")"]
    end.
  Definition index_name (t : table) (cs : list column) : str :=
    lit "idx_" ++ tname t ++ flat_map (fun c => lit "_" ++ colname c) cs.
  Definition create_index (t : table) (cs : list column) : list token :=
    [kw "CREATE"; kw "INDEX"] ++ if_not_exists t ++ [Id (index_name t cs); kw "ON"; Id (tname t); p "("]
    ++ separated (p ",") (fun c => [Id (colname c)]) cs ++ [p ")"; p ";"].
  Definition create_statement (t : table) : list token :=
    [kw "CREATE"; kw "TABLE"] ++ if_not_exists t ++ [Id (tname t); p "("]
    ++ separated (p ",") create_column (tcolumns t)
    ++ flat_map create_constraint (tcolumns t) ++ [p ")"; p ";"]
    ++ flat_map (fun ix => create_index t (columns_at t ix)) (tindexes t).

  Definition names_and_values (t : table) : list token :=
    [Id (tname t); p "("] ++ separated (p ",") (fun c => [Id (colname c)]) (tcolumns t)
    ++ [p ")"; kw "VALUES"; p "("] ++ separated (p ",") (fun _ => [p "?"]) (tcolumns t) ++ [p ")"].
  Definition insert_statement (t : table) : list token :=
    [kw "INSERT"; kw "INTO"] ++ names_and_values t ++
    [kw "RETURNING"; Id (match key_of t with Some k => colname k | None => lit "rowid" end)].
  Definition insert_or_replace_statement (t : table) : list token :=
    [kw "INSERT"; kw "OR"; kw "REPLACE"; kw "INTO"] ++ names_and_values t.
  Definition select_statement (t : table) (columns : list str) : list token :=
    kw "SELECT" :: (match columns with [] => [p "*"] | _ => separated (p ",") (fun c => [Id c]) columns end)
    ++ [kw "FROM"; Id (tname t)].
End Statements.
