(** Model of saving and loading a whole resource in a SQL database: SQLEncoder.EncodeResource of
    ecore/sqlencoder.go and SQLDecoder.DecodeResource of ecore/sqldecoder.go.

    The values of attributes in columns are given by [cell] and [uncell], see SqlValueModel for them; the
    references are those of SqlValueModel.  Packages and classes are found again by the decoder (C86 has the
    enumerations).  SQLite gives keys in order (AUTOINCREMENT) and never fails; foreign keys are not checked (the
    default of SQLite).  References have no opposite other than a container, so that setting one changes no
    other feature.  The container columns are written and never read by the decoder. *)
From Coq Require Import String.
From Verif Require Import Base Chars StrconvModel SqlSchemaModel SqlValueModel.
Local Open Scope string_scope.
Local Open Scope list_scope.
Local Open Scope Z_scope.

Section Doc.
  Context {D C : Type}.   (* values of attributes; values of columns *)

  (** classes and features are numbered.  [fkind]: getSQLCodecFeatureKind; [ftarget]: GetEType of a reference;
      [funique]: IsUnique; [has_literal]: GetDefaultValueLiteral is not empty, with [fdefault] its value;
      [hierarchy]: the class and GetEAllSuperTypes (sqlencoder.go:594-598); [own]: GetEStructuralFeatures *)
  Record meta := mkMeta {
    fkind : nat -> sqlkind;
    ftarget : nat -> nat;
    funique : nat -> bool;
    has_literal : nat -> bool;
    fdefault : nat -> option D;
    own : nat -> list nat;
    hierarchy : nat -> list nat;
    abstract : nat -> bool;
    feature_id : nat -> Z;
    cell : nat -> D -> C;
    uncell : nat -> C -> option D;        (* None: an error *)
    null_value : nat -> option D;         (* what a NULL column is decoded to, None for nil *)
    same_data : D -> D -> bool }.         (* the equality of unique lists *)

  (** an element of a feature: a value or an object *)
  Inductive item := IData (d : D) | IObj (o : nat).
  (** the objects that are saved; [value]: None if the feature is not set (EIsSet), otherwise its values, [Some []] being nil
      for a single-valued one.  [uri]: the text of GetURI relative to the resource; [identity]: the text of GetID,
      None if it is nil *)
  Record source := mkSource {
    oclass : nat -> nat;
    value : nat -> nat -> option (list item);
    uri : nat -> str;
    identity : nat -> option str;
    roots : list nat }.

  (** options of the encoder: SQL_OPTION_OBJECT_ID with a name other than objectID, SQL_OPTION_CONTAINER_ID,
      SQL_OPTION_KEEP_DEFAULTS *)
  Record options := mkOptions { object_id : bool; container_id : bool; keep_defaults : bool }.

  (** what a column holds *)
  Inductive column := CNull | CData (c : C) | CObj (i : Z) | CText (s : str).
  (** rows of the objects table (its columns in order after the key, sqlschema.go:386-402), of the table of a
      class, and of the table of a feature *)
  Inductive idcolumn := IdNull | IdInt (n : Z) | IdText (s : str).
  Record object_row := mkO { r_id : Z; r_class : nat; r_columns : list idcolumn }.
  Record class_row := mkR { c_class : nat; c_id : Z; c_columns : list (nat * column) }.
  Record list_row := mkL { t_feature : nat; t_id : Z; t_idx : Z; t_value : column }.
  Record db := mkDB { objects : list object_row; classes : list class_row; lists : list list_row; contents : list Z }.

  Context (M : meta).

  Definition is_table (k : sqlkind) : bool :=
    match k with sfkObjectList | sfkObjectReferenceList | sfkDataList => true | _ => false end.
  Definition is_column (k : sqlkind) : bool :=
    match k with sfkTransient => false | _ => negb (is_table k) end.

  (** ** the encoder *)
  Section Encoder.
    Context (G : source) (O : options).

    (** [sid]: SQLEncoderIDManager, objects only *)
    Record state := mkS { next : Z; sid : nat -> option Z; tables : db }.

    (** sqlencoder.go:277-279, and EGetResolve(feature, false): the values to encode *)
    Definition encodedValue (o f : nat) : option (list item) :=
      match value G o f with
      | Some l => Some l
      | None => if keep_defaults O && has_literal M f
                then Some (match fdefault M f with Some d => [IData d] | None => [] end)
                else None
      end.

    Definition add_object (s : state) (r : object_row) : state :=
      mkS (next s) (sid s) (mkDB (objects (tables s) ++ [r]) (classes (tables s)) (lists (tables s)) (contents (tables s))).
    Definition add_class (s : state) (r : class_row) : state :=
      mkS (next s) (sid s) (mkDB (objects (tables s)) (classes (tables s) ++ [r]) (lists (tables s)) (contents (tables s))).
    Definition add_list (s : state) (r : list_row) : state :=
      mkS (next s) (sid s) (mkDB (objects (tables s)) (classes (tables s)) (lists (tables s) ++ [r]) (contents (tables s))).
    Definition add_content (s : state) (i : Z) : state :=
      mkS (next s) (sid s) (mkDB (objects (tables s)) (classes (tables s)) (lists (tables s)) (contents (tables s) ++ [i])).

    (** [rec]: encodeObject of an object contained by the feature of the object of that identifier; None when the
        recursion is deeper than the model allows *)
    Section Values.
      Context (rec : state -> nat -> Z -> Z -> option (state * Z)).

      (** sqlencoder.go:420-454 *)
      Definition encodeItem (s : state) (i : Z) (f : nat) (x : item) : option (state * column) :=
        match fkind M f, x with
        | (sfkObject | sfkObjectList), IObj o =>
            match rec s o i (feature_id M f) with Some (s', k) => Some (s', CObj k) | None => None end
        | (sfkObjectReference | sfkObjectReferenceList), IObj o =>
            Some (s, CText (encodeReference (match sid s o with Some k => k | None => 0 end) (uri G o)))
        | _, IData d => Some (s, CData (cell M f d))
        | _, IObj _ => Some (s, CNull)
        end.

      (** sqlencoder.go:383-397 *)
      Fixpoint encodeList (s : state) (i : Z) (f : nat) (idx : Z) (l : list item) : option state :=
        match l with
        | [] => Some s
        | x :: l' =>
            match encodeItem s i f x with
            | Some (s', c) => encodeList (add_list s' (mkL f i idx c)) i f (idx + 1) l'
            | None => None
            end
        end.

      (** sqlencoder.go:364-400: the features of one class of the hierarchy *)
      Fixpoint encodeFeatures (s : state) (o : nat) (i : Z) (fs : list nat) : option (state * list (nat * column)) :=
        match fs with
        | [] => Some (s, [])
        | f :: fs' =>
            match (if is_column (fkind M f) then
                     match encodedValue o f with
                     | Some (x :: _) => match encodeItem s i f x with Some (s', c) => Some (s', [(f, c)]) | None => None end
                     | _ => Some (s, [(f, CNull)])
                     end
                   else if is_table (fkind M f) then
                     match encodedValue o f with
                     | Some l => match encodeList s i f 1 l with Some s' => Some (s', []) | None => None end
                     | None => Some (s, [])
                     end
                   else Some (s, [])) with
            | Some (s1, cs) =>
                match encodeFeatures s1 o i fs' with Some (s2, cs') => Some (s2, cs ++ cs') | None => None end
            | None => None
            end
        end.

      (** sqlencoder.go:354-410: the row of a class is inserted after its features *)
      Fixpoint encodeClasses (s : state) (o : nat) (i : Z) (cs : list nat) : option state :=
        match cs with
        | [] => Some s
        | c :: cs' =>
            match encodeFeatures s o i (own M c) with
            | Some (s', cols) => encodeClasses (add_class s' (mkR c i cols)) o i cs'
            | None => None
            end
        end.
    End Values.

    (** sqlencoder.go:301-325 *)
    Definition columns_of (o : nat) (container feature : Z) : list idcolumn :=
      (if container_id O then if container >? 0 then [IdInt container; IdInt feature] else [IdNull; IdNull] else []) ++
      (if object_id O then [IdText (match identity G o with Some t => t | None => lit "<nil>" end)] else []).

    (** sqlencoder.go:281-418 *)
    Fixpoint encodeObject (fuel : nat) (s : state) (o : nat) (container feature : Z) : option (state * Z) :=
      match sid s o with
      | Some i => Some (s, i)
      | None =>
          match fuel with
          | 0%nat => None
          | S n =>
              let i := next s in
              let s1 := mkS (i + 1) (fun x => if Nat.eqb x o then Some i else sid s x) (tables s) in
              let s2 := add_object s1 (mkO i (oclass G o) (columns_of o container feature)) in
              match encodeClasses (encodeObject n) s2 o i (hierarchy M (oclass G o)) with
              | Some s' => Some (s', i)
              | None => None
              end
          end
      end.

    (** sqlencoder.go:866-903, 263-269: the first object of the contents *)
    Definition save (fuel : nat) : option (db * (nat -> option Z)) :=
      let s := mkS 1 (fun _ => None) (mkDB [] [] [] []) in
      match roots G with
      | [] => Some (tables s, sid s)
      | o :: _ =>
          match encodeObject fuel s o (-1) (-1) with
          | Some (s', i) => Some (tables (add_content s' i), sid s')
          | None => None
          end
      end.
  End Encoder.

  (** ** the decoder *)
  (** an element of a feature of a loaded object: nil, a value, an object of the document, or a proxy made for the
      reference *)
  Inductive loaded_item := LNil | LData (d : D) | LObj (i : Z) | LProxy (c : nat) (u : str).
  (** what is loaded: the contents, the class of each object and the text given to SetID, and the features that
      were given a value *)
  Record loaded := mkLoaded {
    l_roots : list Z;
    l_class : Z -> option nat;
    l_identity : Z -> option str;
    l_value : Z -> nat -> option (list loaded_item) }.

  Section Decoder.
    Context (O : options) (d : db).

    Definition find_object (i : Z) : option object_row := find (fun r => r_id r =? i) (objects d).

    (** sqldecoder.go:388-429, and the other kinds; [None] is an error or a panic *)
    Definition decodeValue (f : nat) (c : column) : option loaded_item :=
      match fkind M f with
      | sfkObject | sfkObjectList =>
          match c with
          | CNull => Some LNil
          | CObj i => match find_object i with Some _ => Some (LObj i) | None => None end
          | _ => None
          end
      | sfkObjectReference | sfkObjectReferenceList =>
          match c with
          | CNull => Some LNil
          | CText t =>
              match decodeReference t with
              | NoTarget => Some LNil
              | Local i => match find_object i with Some _ => Some (LObj i) | None => None end
              | Proxy u => if abstract M (ftarget M f) then None else Some (LProxy (ftarget M f) u)
              end
          | _ => None
          end
      | _ =>
          match c with
          | CNull => Some (match null_value M f with Some v => LData v | None => LNil end)
          | CData x => match uncell M f x with Some v => Some (LData v) | None => None end
          | _ => None
          end
      end.

    (** what a task sets: ESet of a column feature, AddAll to the list of a table feature *)
    Record change := mkChange { g_id : Z; g_feature : nat; g_values : list loaded_item }.

    (** sqldecoder.go:1060-1090: a row of a class; nil values are not set *)
    Fixpoint decodeColumns (i : Z) (cols : list (nat * column)) : option (list change) :=
      match cols with
      | [] => Some []
      | (f, c) :: cols' =>
          match decodeValue f c, decodeColumns i cols' with
          | Some LNil, Some l => Some l
          | Some v, Some l => Some (mkChange i f [v] :: l)
          | _, _ => None
          end
      end.
    Fixpoint decodeRows (rs : list class_row) : option (list change) :=
      match rs with
      | [] => Some []
      | r :: rs' =>
          match find_object (c_id r) with
          | None => None
          | Some _ => match decodeColumns (c_id r) (c_columns r), decodeRows rs' with
                      | Some l, Some l' => Some (l ++ l')
                      | _, _ => None
                      end
          end
      end.

    (** ORDER BY key ASC, idx ASC *)
    Definition row_le (a b : list_row) : bool :=
      (t_id a <? t_id b) || ((t_id a =? t_id b) && (t_idx a <=? t_idx b)).
    Fixpoint insert (r : list_row) (l : list list_row) : list list_row :=
      match l with
      | [] => [r]
      | x :: l' => if row_le r x then r :: l else x :: insert r l'
      end.
    Definition ordered (l : list list_row) : list list_row := fold_right insert [] l.

    (** sqldecoder.go:1133-1144: the list of an object, which must be known *)
    Definition decodeFeatureList (f : nat) (i : Z) (vs : list loaded_item) : option (list change) :=
      match vs with
      | [] => Some []
      | _ => match find_object i with Some _ => Some [mkChange i f vs] | None => None end
      end.
    (** sqldecoder.go:1092-1131: the rows in order; [id] and [vs] are the object being read and its values so far *)
    Fixpoint scan (f : nat) (id : Z) (vs : list loaded_item) (rs : list list_row) : option (list change) :=
      match rs with
      | [] => if id =? -1 then Some [] else decodeFeatureList f id vs
      | r :: rs' =>
          match decodeValue f (t_value r) with
          | None => None
          | Some v =>
              if (id =? -1) || (id =? t_id r) then scan f (t_id r) (vs ++ [v]) rs'
              else match decodeFeatureList f id vs, scan f (t_id r) [v] rs' with
                   | Some l, Some l' => Some (l ++ l')
                   | _, _ => None
                   end
          end
      end.
    Definition decodeTable (f : nat) : option (list change) :=
      scan f (-1) [] (ordered (filter (fun r => Nat.eqb (t_feature r) f) (lists d))).

    Fixpoint collect {A} (g : A -> option (list change)) (l : list A) : option (list change) :=
      match l with
      | [] => Some []
      | x :: l' => match g x, collect g l' with Some a, Some b => Some (a ++ b) | _, _ => None end
      end.
    (** sqldecoder.go:1044-1058 *)
    Definition decodeClassFeatures (c : nat) : option (list change) :=
      match collect decodeTable (filter (fun f => is_table (fkind M f)) (own M c)) with
      | Some l =>
          match filter (fun f => is_column (fkind M f)) (own M c) with
          | [] => Some l
          | _ => match decodeRows (filter (fun r => Nat.eqb (c_class r) c) (classes d)) with
                 | Some l' => Some (l ++ l')
                 | None => None
                 end
          end
      | None => None
      end.
    (** sqldecoder.go:1006-1042: one task for each class of an object and each of its supertypes.  The tasks run
        concurrently; what they set does not depend on the others, and is the list of all changes in some order *)
    Definition decodeFeatures : option (list change) :=
      collect decodeClassFeatures
        (nodup Nat.eq_dec (flat_map (fun r => hierarchy M (r_class r)) (objects d))).

    (** AddAll to an empty list: a unique list takes an element once; each proxy is a new object *)
    Definition same (x y : loaded_item) : bool :=
      match x, y with
      | LNil, LNil => true
      | LData a, LData b => same_data M a b
      | LObj i, LObj j => i =? j
      | _, _ => false
      end.
    Fixpoint once (seen l : list loaded_item) : list loaded_item :=
      match l with
      | [] => []
      | x :: l' => if existsb (same x) seen then once seen l' else x :: once (seen ++ [x]) l'
      end.
    Definition apply (v : Z -> nat -> option (list loaded_item)) (g : change) : Z -> nat -> option (list loaded_item) :=
      fun i f => if (i =? g_id g) && Nat.eqb f (g_feature g)
                 then Some (if is_table (fkind M f) && funique M f then once [] (g_values g) else g_values g)
                 else v i f.

    (** sqldecoder.go:961-1004: the third column is read, if it is a text *)
    Definition decodeIdentity (i : Z) : option str :=
      match find_object i with
      | Some r => if object_id O then match r_columns r with IdText t :: _ => Some t | _ => None end else None
      | None => None
      end.

    (** sqldecoder.go:805-862, with the changes in the order [gs] *)
    Definition load (gs : list change) : loaded :=
      mkLoaded (contents d) (fun i => option_map r_class (find_object i)) decodeIdentity
        (fold_left apply gs (fun _ _ => None)).
  End Decoder.
End Doc.
Arguments meta : clear implicits.
Arguments item : clear implicits.
Arguments source : clear implicits.
Arguments loaded : clear implicits.
Arguments loaded_item : clear implicits.
Arguments change : clear implicits.
Arguments db : clear implicits.
