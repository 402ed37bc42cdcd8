(** Model of the identities of the objects of a SQL store: the identifiers given to objects, the objects given
    to identifiers, the roots of the store, UnRegister, and single-valued references, which are the way a
    program reaches the objects: SQLStoreIDManager and AddRoot, RemoveRoot, GetRoots, UnRegister, Get, Set of
    ecore/sqlstore.go with the parts of ecore/sqlencoder.go and ecore/sqldecoder.go they use.

    An operation is executed after the previous one has ended (SqlSchedModel has the scheduling), on one
    goroutine.  Features are stored in the table of the class of the object (SqlCellModel has inherited ones).
    SQLite answers every query, and refuses a second row of the objects table with the same identifier (its
    key, sqlschema.go:389).  Rows of the contents table come back in the order in which they were inserted. *)
From Verif Require Import Base.
Local Open Scope list_scope.
Local Open Scope Z_scope.

Definition put {A} (m : nat -> A) (k : nat) (a : A) : nat -> A := fun x => if Nat.eqb x k then a else m x.

(** the text or number in the column of a reference: the identifier of an object, or the URI of an object
    that is not in the store *)
Inductive cell := CId (i : Z) | CUri (o : nat).

(** Objects in memory are numbered in the order of their creation, classes and features by the program.
    [values]: what an object holds before it is stored. *)
Record store := mkS {
  count : nat;
  class_of : nat -> nat;
  values : nat -> list (nat * nat);
  sqlid : nat -> Z;                              (* GetSQLID of an SQLObject *)
  byID : Z -> option nat;                        (* sqlDecoderIDManagerImpl.objects *)
  idOf : nat -> option Z;                        (* sqlEncoderIDManagerImpl.objects *)
  rows : Z -> option nat;                        (* objects table: the class *)
  next : Z;                                      (* AUTOINCREMENT *)
  cells : Z -> option (nat -> option cell);      (* the row in the table of the class, if any *)
  roots : list Z }.                              (* contents table *)

(** a data base opened by NewSQLStore (sqlstore.go:719-854): no object is in memory *)
Definition opened (r : Z -> option nat) (n : Z) (c : Z -> option (nat -> option cell)) (l : list Z) : store :=
  mkS 0 (fun _ => O) (fun _ => []) (fun _ => 0) (fun _ => None) (fun _ => None) r n c l.

Section Store.
  Context (sqlClass : nat -> bool).   (* do the instances of the class implement SQLObject *)
  Context (contains : nat -> bool).   (* sfkObject (containment) or sfkObjectReference *)

  Definition is_sql (s : store) (o : nat) : bool := sqlClass (class_of s o).

  (** *** The identifier manager *)

  (** sqlstore.go:380-392 with sqlencoder.go:84-91 *)
  Definition getObjectID (s : store) (o : nat) : Z * bool :=
    if is_sql s o then (sqlid s o, match byID s (sqlid s o) with Some _ => true | None => false end)
    else match idOf s o with Some i => (i, true) | None => (0, false) end.

  (** sqlstore.go:394-405 *)
  Definition setObjectID (s : store) (o : nat) (i : Z) : store :=
    let m := fun k => if k =? i then Some o else byID s k in
    if is_sql s o
    then mkS (count s) (class_of s) (values s) (put (sqlid s) o i) m (idOf s) (rows s) (next s) (cells s) (roots s)
    else mkS (count s) (class_of s) (values s) (sqlid s) m (put (idOf s) o (Some i)) (rows s) (next s) (cells s) (roots s).

  (** sqlstore.go:407-418 *)
  Definition clearObjectID (s : store) (o : nat) : store :=
    let i := if is_sql s o then sqlid s o else match idOf s o with Some i => i | None => 0 end in
    let n := if is_sql s o then idOf s else put (idOf s) o None in
    mkS (count s) (class_of s) (values s) (sqlid s) (fun k => if k =? i then None else byID s k) n
        (rows s) (next s) (cells s) (roots s).

  (** *** Objects to identifiers *)

  (** sqlstore.go:943-967 *)
  Definition getSQLID (s : store) (o : nat) : store * Z * bool :=
    let (i, b) := getObjectID s o in
    if b then (s, i, true)
    else if negb (i =? 0) && match rows s i with Some _ => true | None => false end
         then (setObjectID s o i, i, true)
         else (s, i, false).

  (** INSERT in the objects table, sqlencoder.go:304-341 *)
  Definition insertRow (s : store) (i : Z) (c : nat) : store :=
    mkS (count s) (class_of s) (values s) (sqlid s) (byID s) (idOf s)
        (fun k => if k =? i then Some c else rows s k) (Z.max (next s) (i + 1)) (cells s) (roots s).
  (** INSERT in the table of the class, sqlencoder.go:400-409 *)
  Definition insertCells (s : store) (i : Z) (m : nat -> option cell) : store :=
    mkS (count s) (class_of s) (values s) (sqlid s) (byID s) (idOf s) (rows s) (next s)
        (fun k => if k =? i then Some m else cells s k) (roots s).
  (** UPDATE of a column *)
  Definition updateCell (s : store) (i : Z) (f : nat) (x : option cell) : store :=
    mkS (count s) (class_of s) (values s) (sqlid s) (byID s) (idOf s) (rows s) (next s)
        (fun k => if k =? i then match cells s k with Some m => Some (put m f x) | None => None end else cells s k)
        (roots s).

  (** sqlstore.go:328-333: the object is given the store, where its values are from now on.  All objects
      are EStoreProviders. *)
  Definition registerObject (s : store) (o : nat) : store :=
    mkS (count s) (class_of s) (put (values s) o []) (sqlid s) (byID s) (idOf s) (rows s) (next s) (cells s) (roots s).

  (** the columns of an object, one after the other; [enc] encodes a contained object
      (sqlencoder.go:360-398, 420-434) *)
  Fixpoint encodeValues (enc : store -> nat -> store * option Z) (s : store) (l : list (nat * nat))
    (m : nat -> option cell) : store * option (nat -> option cell) :=
    match l with
    | [] => (s, Some m)
    | (f, r) :: l' =>
        if contains f then
          match enc s r with
          | (s1, Some i) => encodeValues enc s1 l' (put m f (Some (CId i)))
          | (s1, None) => (s1, None)
          end
        else
          let i := fst (getObjectID s r) in
          encodeValues enc s l' (put m f (Some (if i =? 0 then CUri r else CId i)))
    end.

  (** sqlencoder.go:281-418: the identifier, None for an error.  The values of an object were there before
      it, so that [fuel] above its number is enough. *)
  Fixpoint encodeObject (fuel : nat) (s : store) (o : nat) : store * option Z :=
    match fuel with
    | O => (s, None)
    | S n =>
        let (i, b) := getObjectID s o in
        if b then (s, Some i)
        else
          let k := if i =? 0 then next s else i in
          match (if i =? 0 then None else rows s i) with
          | Some _ => (s, None)     (* UNIQUE constraint failed *)
          | None =>
              let s1 := setObjectID (insertRow s k (class_of s o)) o k in
              match encodeValues (encodeObject n) s1 (values s o) (fun _ => None) with
              | (s2, Some m) => (registerObject (insertCells s2 k m) o, Some k)
              | (s2, None) => (s2, None)
              end
          end
    end.

  (** sqlstore.go:970-978 *)
  Definition encodeSQLID (s : store) (o : nat) : store * option Z :=
    let '(s1, i, b) := getSQLID s o in
    if b then (s1, Some i) else encodeObject (S o) s1 o.

  (** *** Identifiers to objects *)

  (** sqldecoder.go:278-340: None is an error; the factory creates an object without values.  The class is
      known (decodeClass), and there is no identifier manager besides that of the store. *)
  Definition create (s : store) (c : nat) : store * nat :=
    (mkS (S (count s)) (put (class_of s) (count s) c) (values s) (sqlid s) (byID s) (idOf s)
         (rows s) (next s) (cells s) (roots s), count s).
  Definition decodeObject (s : store) (i : Z) : store * option nat :=
    match byID s i with
    | Some o => (s, Some o)
    | None =>
        match rows s i with
        | None => (s, None)
        | Some c => let (s1, o) := create s c in (setObjectID s1 o i, Some o)
        end
    end.

  (** *** Calls *)
  Inductive answer := Nothing | Failed | Nil | Object (o : nat) | Proxy (o : nat) | Roots (l : list nat).

  (** sqldecoder.go:388-430 *)
  Definition decodeCell (s : store) (x : option cell) : store * answer :=
    match x with
    | None => (s, Nil)
    | Some (CUri r) => (s, Proxy r)
    | Some (CId i) => match decodeObject s i with (s1, Some o) => (s1, Object o) | (s1, None) => (s1, Failed) end
    end.
  (** sqlstore.go:1394-1418 *)
  Definition getValue (s : store) (i : Z) (f : nat) : store * answer :=
    decodeCell s (match cells s i with Some m => m f | None => None end).
  (** sqlstore.go:1379-1392 *)
  Definition get (s : store) (o f : nat) : store * answer :=
    let '(s1, i, b) := getSQLID s o in
    if b then getValue s1 i f else (s1, Nil).

  (** sqlstore.go:930-941, with sqlencoder.go:426-434 for references *)
  Definition encodeValue (s : store) (f : nat) (v : option nat) : store * option (option cell) :=
    match v with
    | None => (s, Some None)
    | Some r =>
        if contains f then
          match encodeSQLID s r with
          | (s1, Some i) => (s1, Some (Some (CId i)))
          | (s1, None) => (s1, None)
          end
        else let i := fst (getObjectID s r) in (s, Some (Some (if i =? 0 then CUri r else CId i)))
    end.
  (** sqlstore.go:1432-1473 *)
  Definition set (s : store) (o f : nat) (v : option nat) (needResult : bool) : store * answer :=
    match encodeSQLID s o with
    | (s1, None) => (s1, Failed)
    | (s1, Some i) =>
        let (s2, old) := if needResult then getValue s1 i f else (s1, Nothing) in
        match old with
        | Failed => (s2, Failed)
        | _ => match encodeValue s2 f v with
               | (s3, None) => (s3, Failed)
               | (s3, Some x) => (updateCell s3 i f x, old)
               end
        end
    end.

  Definition setRoots (s : store) (l : list Z) : store :=
    mkS (count s) (class_of s) (values s) (sqlid s) (byID s) (idOf s) (rows s) (next s) (cells s) l.
  (** sqlstore.go:1767-1769, sqlencoder.go:263-269 *)
  Definition addRoot (s : store) (o : nat) : store * answer :=
    match encodeObject (S o) s o with
    | (s1, Some i) => (setRoots s1 (roots s1 ++ [i]), Nothing)
    | (s1, None) => (s1, Failed)
    end.
  (** sqlstore.go:1778-1793 *)
  Definition removeRoot (s : store) (o : nat) : store * answer :=
    let '(s1, i, b) := getSQLID s o in
    if b then (setRoots s1 (filter (fun k => negb (k =? i)) (roots s1)), Nothing) else (s1, Nothing).
  (** sqlstore.go:1805-1827 *)
  Fixpoint decodeRoots (s : store) (l : list Z) : store * option (list nat) :=
    match l with
    | [] => (s, Some [])
    | i :: l' =>
        match decodeObject s i with
        | (s1, None) => (s1, None)
        | (s1, Some o) => match decodeRoots s1 l' with
                          | (s2, Some os) => (s2, Some (o :: os))
                          | (s2, None) => (s2, None)
                          end
        end
    end.
  Definition getRoots (s : store) : store * answer :=
    match decodeRoots s (roots s) with (s1, Some l) => (s1, Roots l) | (s1, None) => (s1, Failed) end.

  (** sqlstore.go:1829-1859: an object and what is below it, as EContents gives it *)
  Inductive tree := Node (o : nat) (l : list tree).
  Fixpoint postOrder (t : tree) : list nat :=
    match t with Node o l => flat_map postOrder l ++ [o] end.
  Definition unRegister (s : store) (t : tree) : store :=
    fold_left clearObjectID (postOrder t) s.

  (** a program also creates objects, with values, and objects that have an identifier already: those of
      another store *)
  Definition new (s : store) (c : nat) (v : list (nat * nat)) (i : Z) : store :=
    mkS (S (count s)) (put (class_of s) (count s) c) (put (values s) (count s) v) (put (sqlid s) (count s) i)
        (byID s) (idOf s) (rows s) (next s) (cells s) (roots s).

  Inductive call :=
  | New (c : nat) (v : list (nat * nat))
  | Foreign (c : nat) (i : Z)
  | Get (o f : nat)
  | Set_ (o f : nat) (v : option nat) (needResult : bool)
  | AddRoot (o : nat)
  | RemoveRoot (o : nat)
  | GetRoots
  | UnRegister (t : tree).

  Definition perform (s : store) (k : call) : store * answer :=
    match k with
    | New c v => (new s c v 0, Object (count s))
    | Foreign c i => (new s c [] i, Object (count s))
    | Get o f => get s o f
    | Set_ o f v r => set s o f v r
    | AddRoot o => addRoot s o
    | RemoveRoot o => removeRoot s o
    | GetRoots => getRoots s
    | UnRegister t => (unRegister s t, Nothing)
    end.
End Store.
