(** Model of the SQL schema: ecore/sqlschema.go, and the kinds of features of ecore/sqlcodec.go.

    Strings are lists of bytes; strings.ToLower/ToUpper are modelled on ASCII letters.  Tables are values;
    a pointer to the table of a class is the number of the class, so that what the code reads through the
    pointer is read from the schema.  The mutex of getClassSchema only makes each call atomic. *)
From Coq Require Import String.
From Verif Require Import Base Chars.
Local Open Scope string_scope.
Local Open Scope list_scope.
Local Open Scope Z_scope.

(** strings.ToLower, strings.ToUpper on ASCII *)
Definition lower1 (c : Z) : Z := if (65 <=? c) && (c <=? 90) then c + 32 else c.
Definition upper1 (c : Z) : Z := if (97 <=? c) && (c <=? 122) then c - 32 else c.
Definition lower (s : str) : str := map lower1 s.
Definition upper (s : str) : str := map upper1 s.

(** sqlcodec.go:59-81 *)
Inductive sqlkind :=
| sfkTransient | sfkFloat64 | sfkFloat32 | sfkInt | sfkInt64 | sfkInt32 | sfkInt16 | sfkByte | sfkBool
| sfkString | sfkByteArray | sfkEnum | sfkDate | sfkData | sfkDataList
| sfkObject | sfkObjectList | sfkObjectReference | sfkObjectReferenceList.

(** what the code asks of a feature: an EReference or an EAttribute *)
Inductive ftype :=
| Reference (containment many opposite_containment resolve_proxies container : bool)
| Attribute (many enum : bool) (instance_type : str).
(** [reftype]: GetEReferenceType, numbered; None = nil *)
Record feature := mkF { fname : str; ftransient : bool; ftyp : ftype; reftype : option nat }.

(** sqlcodec.go:122-147 *)
Definition data_kind (s : str) : sqlkind :=
  let is l := existsb (fun t => str_eqb (lit t) s) l in
  if is ["float64"; "java.lang.Double"; "double"] then sfkFloat64
  else if is ["float32"; "java.lang.Float"; "float"] then sfkFloat32
  else if is ["int"; "java.lang.Integer"] then sfkInt
  else if is ["int64"; "java.lang.Long"; "java.math.BigInteger"; "long"] then sfkInt64
  else if is ["int32"] then sfkInt32
  else if is ["int16"; "java.lang.Short"; "short"] then sfkInt16
  else if is ["byte"] then sfkByte
  else if is ["bool"; "java.lang.Boolean"; "boolean"] then sfkBool
  else if is ["string"; "java.lang.String"] then sfkString
  else if is ["[]byte"; "java.util.ByteArray"] then sfkByteArray
  else if is ["*time/time.Time"; "java.util.Date"] then sfkDate
  else sfkData.

(** sqlcodec.go:83-151 *)
Definition getSQLCodecFeatureKind (f : feature) : sqlkind :=
  if ftransient f then sfkTransient
  else match ftyp f with
       | Reference containment many opposite_containment resolve_proxies container =>
           if containment then if many then sfkObjectList else sfkObject
           else if opposite_containment then sfkTransient
           else if resolve_proxies then if many then sfkObjectReferenceList else sfkObjectReference
           else if container then sfkTransient
           else if many then sfkObjectList else sfkObject
       | Attribute many enum t =>
           if many then sfkDataList else if enum then sfkEnum else data_kind t
       end.

(** the table a column refers to *)
Inductive tref := RPackages | RClasses | RObjects | REnums | RClass (c : nat).

(** sqlschema.go:8-16; [ctype]: columnType *)
Record column := mkC { colname : str; coltype : str; primary : bool; auto : bool; reference : option tref }.
(** sqlschema.go:106-112; [tkey]: position of the key column; [tindexes]: positions *)
Record table := mkT { tname : str; tkey : option nat; tcolumns : list column; tindexes : list (list nat); tifne : bool }.

(** sqlschema.go:52-61 without options *)
Definition attribute_column (name type : str) : column := mkC name type false false None.

(** sqlschema.go:124-135 (addColumn, initColumn) *)
Definition add_column (t : table) (c : column) : table :=
  mkT (tname t) (if primary c then Some (length (tcolumns t)) else tkey t) (tcolumns t ++ [c]) (tindexes t) (tifne t).
(** sqlschema.go:114-122 with 91-104 *)
Definition new_table (name : str) (columns : list column) (ifne : bool) : table :=
  fold_left add_column columns (mkT name None [] [] ifne).

(** sqlschema.go:282-301; [fcolumn]: position in the table of the class *)
Record feature_schema := mkFS { fkind : sqlkind; ffeature : feature; fcolumn : option nat; ftable : option table }.
Record class_schema := mkCS { ctable : table; cfeatures : list feature_schema }.

Section Schema.
  (** options of newSqlSchema (sqlschema.go:333-349) *)
  Context (createIfNotExists isContainerID : bool) (objectIDName : str).

  Definition key_column (name : string) : column := mkC (lit name) (lit "INTEGER") true true None.

  (** sqlschema.go:361-419 *)
  Definition propertiesTable : table :=
    new_table (lit ".properties")
      [mkC (lit "key") (lit "TEXT") true false None; attribute_column (lit "value") (lit "TEXT")] createIfNotExists.
  Definition packagesTable : table :=
    new_table (lit ".packages") [key_column "packageID"; attribute_column (lit "uri") (lit "TEXT")] createIfNotExists.
  Definition classesTable : table :=
    new_table (lit ".classes")
      [key_column "classID"; mkC (lit "packageID") (lit "INTEGER") false false (Some RPackages);
       attribute_column (lit "name") (lit "TEXT")] createIfNotExists.
  Definition objectsTable : table :=
    let t := new_table (lit ".objects")
               [key_column "objectID"; mkC (lit "classID") (lit "INTEGER") false false (Some RClasses)] createIfNotExists in
    let t := if isContainerID
             then add_column (add_column t (mkC (lit "containerID") (lit "INTEGER") false false (Some RObjects)))
                             (attribute_column (lit "containerFeatureID") (lit "INTEGER"))
             else t in
    match objectIDName with
    | [] => t
    | _ => if str_eqb objectIDName (lit "objectID") then t else add_column t (attribute_column objectIDName (lit "TEXT"))
    end.
  Definition contentsTable : table :=
    new_table (lit ".contents") [mkC (lit "objectID") (lit "INTEGER") false false (Some RObjects)] createIfNotExists.
  Definition enumsTable : table :=
    new_table (lit ".enums")
      [key_column "enumID"; mkC (lit "packageID") (lit "INTEGER") false false (Some RPackages);
       attribute_column (lit "name") (lit "TEXT"); attribute_column (lit "literal") (lit "TEXT")] createIfNotExists.

  (** the metamodel: GetName and GetEStructuralFeatures (own features) of a class *)
  Context (class_name : nat -> str) (class_features : nat -> list feature).

  (** classSchemaMap *)
  Definition schema := list (nat * class_schema).
  Definition find_class (c : nat) (s : schema) : option class_schema :=
    match find (fun p => Nat.eqb (fst p) c) s with Some (_, cs) => Some cs | None => None end.
  (** a change made through the pointer to the schema of a class *)
  Definition update_class (c : nat) (g : class_schema -> class_schema) (s : schema) : schema :=
    map (fun p => if Nat.eqb (fst p) c then (fst p, g (snd p)) else p) s.

  Definition table_of (s : schema) (r : tref) : option table :=
    match r with
    | RPackages => Some packagesTable
    | RClasses => Some classesTable
    | RObjects => Some objectsTable
    | REnums => Some enumsTable
    | RClass c => match find_class c s with Some cs => Some (ctable cs) | None => None end
    end.
  Definition key_of (t : table) : option column := match tkey t with Some i => nth_error (tcolumns t) i | None => None end.

  (** sqlschema.go:63-73, [name]: withSqlColumnName; reference.key is nil: panic *)
  Definition reference_column (s : schema) (r : tref) (name : option str) : option column :=
    match table_of s r with
    | Some t =>
        match key_of t with
        | Some k => Some (mkC (match name with Some n => n | None => colname k end) (coltype k) false false (Some r))
        | None => None
        end
    | None => None
    end.

  (** sqlschema.go:446-467: the schema of the feature, and the table of the class *)
  Definition with_column (k : sqlkind) (f : feature) (col : column) (cs : class_schema) : class_schema :=
    mkCS (add_column (ctable cs) col) (cfeatures cs ++ [mkFS k f (Some (length (tcolumns (ctable cs)))) None]).
  Definition with_table (k : sqlkind) (f : feature) (columns : list column) (cs : class_schema) : class_schema :=
    let t := new_table (tname (ctable cs) ++ lit "_" ++ fname f) columns createIfNotExists in
    mkCS (ctable cs) (cfeatures cs ++ [mkFS k f None (Some (mkT (tname t) (Some 0%nat) (tcolumns t) [[0; 1]%nat] (tifne t)))]).
  Definition without (k : sqlkind) (f : feature) (cs : class_schema) : class_schema :=
    mkCS (ctable cs) (cfeatures cs ++ [mkFS k f None None]).

  Definition attribute_type (k : sqlkind) : option str :=
    match k with
    | sfkObjectReference => Some (lit "TEXT")
    | sfkFloat64 | sfkFloat32 => Some (lit "REAL")
    | sfkBool | sfkByte | sfkInt | sfkInt16 | sfkInt32 | sfkInt64 => Some (lit "INTEGER")
    | sfkDate | sfkString | sfkData => Some (lit "TEXT")
    | sfkByteArray => Some (lit "BLOB")
    | _ => None
    end.

  (** failure: nil reference type, or the bound of the recursion ([None]) *)
  Inductive computed := Computed (s : schema) | Panics | Unfinished.
  Definition then_ (r : computed) (g : schema -> computed) : computed :=
    match r with Computed s => g s | _ => r end.
  Definition orpanic (c : option column) (g : column -> computed) : computed :=
    match c with Some c => g c | None => Panics end.

  Section Rec.
    Context (compute : nat -> schema -> computed).

    (** sqlschema.go:469-518, one feature of class [c].  Simplification: the feature schema is appended
        to classSchema.features after the schema of the reference type is computed, not before. *)
    Definition compute_feature (c : nat) (f : feature) (s : schema) : computed :=
      let k := getSQLCodecFeatureKind f in
      match k with
      | sfkObject =>
          match reftype f with
          | None => Panics
          | Some r => then_ (compute r s) (fun s1 =>
              orpanic (reference_column s1 (RClass r) (Some (fname f))) (fun col =>
              Computed (update_class c (with_column k f col) s1)))
          end
      | sfkObjectList =>
          match reftype f with
          | None => Panics
          | Some r => then_ (compute r s) (fun s1 =>
              orpanic (reference_column s1 (RClass c) None) (fun col0 =>
              orpanic (reference_column s1 (RClass r) (Some (fname f))) (fun col2 =>
              Computed (update_class c (with_table k f [col0; attribute_column (lit "idx") (lit "REAL"); col2]) s1))))
          end
      | sfkObjectReferenceList =>
          orpanic (reference_column s (RClass c) None) (fun col0 =>
          Computed (update_class c (with_table k f [col0; attribute_column (lit "idx") (lit "REAL"); attribute_column (lit "uri") (lit "TEXT")]) s))
      | sfkDataList =>
          orpanic (reference_column s (RClass c) None) (fun col0 =>
          Computed (update_class c (with_table k f [col0; attribute_column (lit "idx") (lit "REAL"); attribute_column (fname f) (lit "TEXT")]) s))
      | sfkEnum =>
          orpanic (reference_column s REnums (Some (fname f))) (fun col =>
          Computed (update_class c (with_column k f col) s))
      | _ =>
          match attribute_type k with
          | Some t => Computed (update_class c (with_column k f (attribute_column (fname f) t)) s)
          | None => Computed (update_class c (without k f) s)   (* sfkTransient *)
          end
      end.

    Fixpoint compute_features (c : nat) (fs : list feature) (s : schema) : computed :=
      match fs with
      | [] => Computed s
      | f :: fs' => then_ (compute_feature c f s) (compute_features c fs')
      end.

    (** sqlschema.go:429-522 *)
    Definition compute_body (c : nat) (s : schema) : computed :=
      match find_class c s with
      | Some _ => Computed s
      | None =>
          let t := new_table (lower (class_name c))
                     [mkC (lower (class_name c) ++ lit "ID") (lit "INTEGER") true false None] createIfNotExists in
          compute_features c (class_features c) ((c, mkCS t []) :: s)
      end.
  End Rec.

  (** [n] bounds the depth of the recursion *)
  Fixpoint compute (n : nat) (c : nat) (s : schema) : computed :=
    match n with
    | O => match find_class c s with Some _ => Computed s | None => Unfinished end
    | S n' => compute_body (compute n') c s
    end.
  (** sqlschema.go:423-427 (getClassSchema), any number of requests *)
  Fixpoint calls (n : nat) (cs : list nat) (s : schema) : computed :=
    match cs with [] => Computed s | c :: cs' => then_ (compute n c s) (calls n cs') end.
End Schema.

(** ** queries *)

(** sqlschema.go:524-539 *)
Definition sqliteKeyWords : list str := map lit [
  "ABORT"; "ACTION"; "ADD"; "AFTER"; "ALL"; "ALTER"; "ALWAYS"; "ANALYZE"; "AND"; "AS"; "ASC"; "ATTACH";
  "AUTOINCREMENT"; "BEFORE"; "BEGIN"; "BETWEEN"; "BY"; "CASCADE"; "CASE"; "CAST"; "CHECK"; "COLLATE";
  "COLUMN"; "COMMIT"; "CONFLICT"; "CONSTRAINT"; "CREATE"; "CROSS"; "CURRENT"; "CURRENT_DATE";
  "CURRENT_TIME"; "CURRENT_TIMESTAMP"; "DATABASE"; "DEFAULT"; "DEFERRABLE"; "DEFERRED"; "DELETE";
  "DESC"; "DETACH"; "DISTINCT"; "DO"; "DROP"; "EACH"; "ELSE"; "END"; "ESCAPE"; "EXCEPT"; "EXCLUDE";
  "EXCLUSIVE"; "EXISTS"; "EXPLAIN"; "FAIL"; "FILTER"; "FIRST"; "FOLLOWING"; "FOR"; "FOREIGN"; "FROM";
  "FULL"; "GENERATED"; "GLOB"; "GROUP"; "GROUPS"; "HAVING"; "IF"; "IGNORE"; "IMMEDIATE"; "IN"; "INDEX";
  "INDEXED"; "INITIALLY"; "INNER"; "INSERT"; "INSTEAD"; "INTERSECT"; "INTO"; "IS"; "ISNULL"; "JOIN";
  "KEY"; "LAST"; "LEFT"; "LIKE"; "LIMIT"; "MATCH"; "MATERIALIZED"; "NATURAL"; "NO"; "NOT"; "NOTHING";
  "NOTNULL"; "NULL"; "NULLS"; "OF"; "OFFSET"; "ON"; "OR"; "ORDER"; "OTHERS"; "OUTER"; "OVER"; "PARTITION";
  "PLAN"; "PRAGMA"; "PRECEDING"; "PRIMARY"; "QUERY"; "RAISE"; "RANGE"; "RECURSIVE"; "REFERENCES"; "REGEXP";
  "REINDEX"; "RELEASE"; "RENAME"; "REPLACE"; "RESTRICT"; "RETURNING"; "RIGHT"; "ROLLBACK"; "ROW"; "ROWS"; "SAVEPOINT";
  "SELECT"; "SET"; "TABLE"; "TEMP"; "TEMPORARY"; "THEN"; "TIES"; "TO"; "TRANSACTION"; "TRIGGER"; "UNBOUNDED"; "UNION";
  "UNIQUE"; "UPDATE"; "USING"; "VACUUM"; "VALUES"; "VIEW"; "VIRTUAL"; "WHEN"; "WHERE"; "WINDOW"; "WITH"; "WITHOUT" ].

(** sqlschema.go:549-557 *)
Definition isSqliteKeyWord (k : str) : bool :=
  existsb (str_eqb k) sqliteKeyWords || existsb (str_eqb (upper k)) sqliteKeyWords.

(** sqlschema.go:559-564; id[0] panics on the empty name *)
Definition sqlEscapeIdentifier (id : str) : option str :=
  match id with
  | [] => None
  | c :: _ => if (c =? 46) || isSqliteKeyWord id then Some (lit """" ++ id ++ lit """") else Some id
  end.

(** strings.Builder: pieces written one after the other; None = panic *)
Fixpoint write (l : list (option str)) : option str :=
  match l with
  | [] => Some []
  | None :: _ => None
  | Some s :: l' => match write l' with Some r => Some (s ++ r) | None => None end
  end.
Notation txt s := (Some (lit s)).
(** the separator of the loops "if i != 0 { , }" *)
Definition comma_separated {X} (g : X -> list (option str)) (l : list X) : list (option str) :=
  concat (map (fun p => (if Nat.eqb (fst p) 0 then [] else [txt ","]) ++ g (snd p)) (combine (seq 0 (length l)) l)).

Section Queries.
  (** the table and the key behind a reference *)
  Context (ref_table : tref -> option table).

  Definition columns_at (t : table) (l : list nat) : list column :=
    concat (map (fun i => match nth_error (tcolumns t) i with Some c => [c] | None => [] end) l).

  (** sqlschema.go:160-171 *)
  Definition constraint (c : column) : list (option str) :=
    match reference c with
    | None => []
    | Some r =>
        match ref_table r with
        | Some t => [txt ",FOREIGN KEY("; sqlEscapeIdentifier (colname c); txt ") REFERENCES "; sqlEscapeIdentifier (tname t); txt "(";
                     match key_of t with Some k => sqlEscapeIdentifier (colname k) | None => None end; txt ")"]
        | None => [None]
        end
    end.

  (** sqlschema.go:137-197 *)
  Definition createQuery (t : table) : option str :=
    write (
      [txt "CREATE TABLE "] ++ (if tifne t then [txt "IF NOT EXISTS "] else []) ++
      [sqlEscapeIdentifier (tname t); txt " ("] ++
      comma_separated (fun c =>
        [sqlEscapeIdentifier (colname c); txt " "; Some (coltype c)] ++
        (if primary c then txt " PRIMARY KEY" :: (if auto c then [txt " AUTOINCREMENT"] else []) else [])) (tcolumns t) ++
      concat (map constraint (tcolumns t)) ++ [txt ");"] ++
      concat (map (fun index =>
        [Some [10]; txt "CREATE INDEX "] ++ (if tifne t then [txt "IF NOT EXISTS "] else []) ++
        [txt """idx_"; Some (tname t)] ++
        concat (map (fun c => [txt "_"; Some (colname c)]) (columns_at t index)) ++
        [txt """ ON "; sqlEscapeIdentifier (tname t); txt "("] ++
        comma_separated (fun c => [sqlEscapeIdentifier (colname c)]) (columns_at t index) ++
        [txt ");"]) (tindexes t))).

  (** sqlschema.go:199-224 *)
  Definition insertQuery (t : table) : option str :=
    write (
      [txt "INSERT INTO "; sqlEscapeIdentifier (tname t); txt " ("] ++
      comma_separated (fun c => [sqlEscapeIdentifier (colname c)]) (tcolumns t) ++ [txt ") VALUES ("] ++
      comma_separated (fun _ => [txt "?"]) (tcolumns t) ++ [txt ") RETURNING "] ++
      [match tkey t with
       | Some _ => match key_of t with Some k => sqlEscapeIdentifier (colname k) | None => None end
       | None => txt "rowid" end]).

  (** sqlschema.go:226-246 *)
  Definition insertOrReplaceQuery (t : table) : option str :=
    write (
      [txt "INSERT OR REPLACE INTO "; sqlEscapeIdentifier (tname t); txt " ("] ++
      comma_separated (fun c => [sqlEscapeIdentifier (colname c)]) (tcolumns t) ++ [txt ") VALUES ("] ++
      comma_separated (fun _ => [txt "?"]) (tcolumns t) ++ [txt ")"]).

  (** sqlschema.go:252-254 *)
  Definition keyName (t : table) : option str := match key_of t with Some k => sqlEscapeIdentifier (colname k) | None => None end.

  (** sqlschema.go:256-280; [columns], [selection], [orderBy] are texts, escaped or not by the caller *)
  Definition selectQuery (t : table) (columns : list str) (selection orderBy : str) : option str :=
    write (
      [txt "SELECT "] ++
      (match columns with [] => [txt "*"] | _ => comma_separated (fun c => [sqlEscapeIdentifier c]) columns end) ++
      [txt " FROM "; sqlEscapeIdentifier (tname t)] ++
      (match selection with [] => [] | _ => [txt " WHERE "; Some selection] end) ++
      (match orderBy with [] => [] | _ => [txt " ORDER BY "; Some orderBy] end)).
End Queries.
