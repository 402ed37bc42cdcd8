(** Model of what a metamodel remembers about itself: the classifiers of a package by name
    (ecore/epackage_ext.go), the types and names of ExtendedMetaData (ecore/extendedmetadata.go), the default
    value of a feature (ecore/estructuralfeature_ext.go) and of a data type (ecore/edatatype_ext.go,
    ecore/eenum_ext.go), the type of a reference (ecore/ereference_ext.go) and the number of a classifier
    (ecore/eclassifier_impl.go, ecore/eclassifier_ext.go).

    Classifiers, packages, features and factories are numbers.  Each is a record of its attributes and of
    the fields in which the code keeps what it has computed.  Nothing is a proxy, so GetEType is the field;
    there is one ExtendedMetaData; calls are sequential.  [None] is a panic. *)
From Coq Require Import String.
From Verif Require Import Base Chars FloatModel LiteralModel.
Local Open Scope string_scope.
Local Open Scope list_scope.
Local Open Scope Z_scope.

(** a classifier: eclassifier_impl.go:19-24, edatatype_ext.go:17-21.  [cext]: the value of the key "name" of
    its annotation ExtendedMetaData; [cdata]: the literals and instance type names if it is a data type *)
Record classifier := mkClassifier {
  cname : str; cext : option str; cdata : option datatype; cserial : bool;
  cvalue : gval; cvalueset : bool; cpackage : option nat; cnumber : Z }.
(** a package: epackage_ext.go:32-37; [pdeliver]: EDeliver; [pcache]: classifierCache *)
Record package := mkPackage {
  pname : str; pclassifiers : list nat; pfactory : option nat; pdeliver : bool; pcache : option (list (str * nat)) }.
(** a feature: estructuralfeature_ext.go:13-17, ereference_ext.go:13-16 *)
Record feature := mkFeature {
  ftype : option nat; fliteral : str; fupper : Z; fvalue : gval; fvaluefactory : option nat; freftype : option nat }.

(** the elements that are keys of the map metaData, and its values: extendedmetadata.go:16-45 *)
Inductive elem := Cl (c : nat) | Pk (p : nat).
Inductive entry := Named (name : str) | Types (types : option (list (str * nat))).

Record world := mkWorld {
  classifiers : nat -> classifier; packages : nat -> package; features : nat -> feature; metadata : elem -> option entry }.

Definition upd {X} (f : nat -> X) (k : nat) (x : X) : nat -> X := fun m => if Nat.eqb m k then x else f m.
Definition elem_eqb (a b : elem) : bool :=
  match a, b with Cl x, Cl y | Pk x, Pk y => Nat.eqb x y | _, _ => false end.
Definition set_classifier c x w := mkWorld (upd (classifiers w) c x) (packages w) (features w) (metadata w).
Definition set_package p x w := mkWorld (classifiers w) (upd (packages w) p x) (features w) (metadata w).
Definition set_feature f x w := mkWorld (classifiers w) (packages w) (upd (features w) f x) (metadata w).
Definition set_entry e x w :=
  mkWorld (classifiers w) (packages w) (features w) (fun e' => if elem_eqb e' e then Some x else metadata w e').

(** Go maps from strings: reading, and writing *)
Fixpoint mget (m : list (str * nat)) (n : str) : option nat :=
  match m with [] => None | (k, v) :: m' => if str_eqb k n then Some v else mget m' n end.
Fixpoint mput (m : list (str * nat)) (n : str) (c : nat) : list (str * nat) :=
  match m with [] => [(n, c)] | (k, v) :: m' => if str_eqb k n then (k, c) :: m' else (k, v) :: mput m' n c end.

Section Meta.
  (** CreateFromString and ConvertToString of the factories *)
  Context (create : nat -> datatype -> str -> option gval) (convert : nat -> datatype -> gval -> option str).

  (** ** changes *)
  Definition with_name n x := mkClassifier n (cext x) (cdata x) (cserial x) (cvalue x) (cvalueset x) (cpackage x) (cnumber x).
  Definition with_ext n x := mkClassifier (cname x) n (cdata x) (cserial x) (cvalue x) (cvalueset x) (cpackage x) (cnumber x).
  Definition with_data d x := mkClassifier (cname x) (cext x) d (cserial x) (cvalue x) (cvalueset x) (cpackage x) (cnumber x).
  Definition with_serial b x := mkClassifier (cname x) (cext x) (cdata x) b (cvalue x) (cvalueset x) (cpackage x) (cnumber x).
  Definition with_value v b x := mkClassifier (cname x) (cext x) (cdata x) (cserial x) v b (cpackage x) (cnumber x).
  Definition with_package p x := mkClassifier (cname x) (cext x) (cdata x) (cserial x) (cvalue x) (cvalueset x) p (cnumber x).
  Definition with_number i x := mkClassifier (cname x) (cext x) (cdata x) (cserial x) (cvalue x) (cvalueset x) (cpackage x) i.
  Definition with_factory f x := mkPackage (pname x) (pclassifiers x) f (pdeliver x) (pcache x).
  Definition with_deliver b x := mkPackage (pname x) (pclassifiers x) (pfactory x) b (pcache x).
  Definition with_cache m x := mkPackage (pname x) (pclassifiers x) (pfactory x) (pdeliver x) m.
  Definition with_classifiers l x := mkPackage (pname x) l (pfactory x) (pdeliver x) (pcache x).

  (** a change of the list of the classifiers of [p] and its notification: epackage_ext.go:19-29, and
      ENotificationRequired of abstracteobject.go: an object that does not deliver does not notify *)
  Definition changed (l : list nat) (x : package) : package :=
    let x' := with_classifiers l x in if pdeliver x' then with_cache None x' else x'.
  Definition on_list (p : nat) (g : list nat -> list nat) (w : world) : world :=
    set_package p (changed (g (pclassifiers (packages w p))) (packages w p)) w.
  Definition in_list (l : list nat) (c : nat) : bool := existsb (Nat.eqb c) l.
  Definition out_of (c : nat) (l : list nat) : list nat := filter (fun d => negb (Nat.eqb d c)) l.

  (** GetEClassifiers().Remove(c): the container of the classifier is reset *)
  Definition removeClassifier (p c : nat) (w : world) : world :=
    if in_list (pclassifiers (packages w p)) c
    then set_classifier c (with_package None (classifiers w c)) (on_list p (out_of c) w)
    else w.
  (** GetEClassifiers().Add(c): nothing if it is there; it leaves the package it was in *)
  Definition addClassifier (p c : nat) (w : world) : world :=
    if in_list (pclassifiers (packages w p)) c then w
    else let w1 := match cpackage (classifiers w c) with Some q => removeClassifier q c w | None => w end in
         set_classifier c (with_package (Some p) (classifiers w1 c)) (on_list p (fun l => l ++ [c]) w1).

  (** epackage_impl.go:86-100: [p] takes the factory, which belongs to no other package; its data types are
      converted by the factory it takes *)
  Definition setFactory (p : nat) (f : nat) (w : world) : world :=
    set_package p (with_factory (Some f) (packages w p)) w.

  (** ** the classifiers of a package, epackage_ext.go:53-69 *)
  Definition by_name (w : world) (l : list nat) : list (str * nat) :=
    fold_left (fun m c => mput m (cname (classifiers w c)) c) l [].
  Definition getEClassifier (p : nat) (n : str) (w : world) : world * option nat :=
    let x := packages w p in
    match pcache x with
    | Some m => (w, mget m n)
    | None => let m := by_name w (pclassifiers x) in (set_package p (with_cache (Some m) x) w, mget m n)
    end.

  (** ** ExtendedMetaData *)
  Definition uninitialized : str := lit "unitialized".
  (** extendedmetadata.go:169-176; a package has no annotation *)
  Definition basicGetName (w : world) (e : elem) : str :=
    match e with
    | Cl c => match cext (classifiers w c) with Some n => n | None => cname (classifiers w c) end
    | Pk p => pname (packages w p)
    end.
  (** extendedmetadata.go:92-105,133-135,30-35; the assertion of the type of the entry panics *)
  Definition getName (e : elem) (w : world) : option (world * str) :=
    let name := match metadata w e with
                | None => Some uninitialized
                | Some (Named n) => Some n
                | Some (Types _) => None
                end in
    match name with
    | None => None
    | Some n => let n' := if str_eqb n uninitialized then basicGetName w e else n in
                Some (set_entry e (Named n') w, n')
    end.
  (** extendedmetadata.go:54-66: the loop stops at the first classifier with the name looked for *)
  Fixpoint typesLoop (l : list nat) (name : str) (m : list (str * nat)) (w : world)
    : option (world * list (str * nat) * option nat) :=
    match l with
    | [] => Some (w, m, None)
    | c :: l' =>
        match getName (Cl c) w with
        | None => None
        | Some (w', n) =>
            let m' := mput m n c in
            if str_eqb n name then Some (w', m', Some c) else typesLoop l' name m' w'
        end
    end.
  (** extendedmetadata.go:118-131,47-70 *)
  Definition getType (p : nat) (name : str) (w : world) : option (world * option nat) :=
    let types := match metadata w (Pk p) with
                 | None => Some None
                 | Some (Types t) => Some t
                 | Some (Named _) => None
                 end in
    match types with
    | None => None
    | Some t =>
        let w0 := set_entry (Pk p) (Types t) w in
        match match t with Some m => mget m name | None => None end with
        | Some c => Some (w0, Some c)
        | None =>
            let l := pclassifiers (packages w p) in
            if match t with Some m => Nat.eqb (List.length m) (List.length l) | None => false end then Some (w0, None)
            else match typesLoop l name [] w0 with
                 | None => None
                 | Some (w1, m, r) => Some (set_entry (Pk p) (Types (Some m)) w1, r)
                 end
        end
    end.

  (** ** default values *)
  (** edatatype_ext.go:39-66, eenum_ext.go:23-29, eclassifier_ext.go:31-33 *)
  Definition typeDefault (c : nat) (w : world) : world * gval :=
    let x := classifiers w c in
    match cdata x with
    | None => (w, VNil)
    | Some d =>
        match denum d with
        | Some ls => (w, match ls with [] => VNil | l :: _ => VInt (lvalue l) end)
        | None =>
            if cvalueset x then (w, cvalue x)
            else match type_switch (getInstanceTypeName d) with
                 | Some GBytes | None => (set_classifier c (with_value (cvalue x) true x) w, cvalue x)
                 | Some _ => (w, getDefaultValue d)
                 end
        end
    end.
  (** etypedelement_ext.go:23-26 *)
  Definition isMany (x : feature) : bool := (1 <? fupper x) || (fupper x =? -1).
  Definition is_factory (a b : option nat) : bool :=
    match a, b with Some x, Some y => Nat.eqb x y | None, None => true | _, _ => false end.
  Definition with_default v f x := mkFeature (ftype x) (fliteral x) (fupper x) v f (freftype x).
  Definition with_literal s x := mkFeature (ftype x) s (fupper x) (fvalue x) None (freftype x).
  Definition with_type t x := mkFeature t (fliteral x) (fupper x) (fvalue x) (fvaluefactory x) (freftype x).
  Definition with_upper u x := mkFeature (ftype x) (fliteral x) u (fvalue x) (fvaluefactory x) (freftype x).
  Definition with_reftype t x := mkFeature (ftype x) (fliteral x) (fupper x) (fvalue x) (fvaluefactory x) t.
  (** estructuralfeature_ext.go:27-49 *)
  Definition getFeatureDefault (f : nat) (w : world) : option (world * gval) :=
    let x := features w f in
    match ftype x with
    | None => Some (w, VNil)
    | Some c =>
        match fliteral x with
        | [] => if isMany x then Some (w, VNil) else Some (typeDefault c w)
        | s =>
            match cdata (classifiers w c) with
            | None => Some (w, VNil)
            | Some d =>
                match cpackage (classifiers w c) with
                | None => Some (w, fvalue x)
                | Some p =>
                    let fac := pfactory (packages w p) in
                    if is_factory fac (fvaluefactory x) then Some (w, fvalue x)
                    else if cserial (classifiers w c)
                    then match fac with
                         | None => None
                         | Some g => match create g d s with
                                     | None => None
                                     | Some v => Some (set_feature f (with_default v fac x) w, v)
                                     end
                         end
                    else Some (set_feature f (with_default (fvalue x) fac x) w, fvalue x)
                end
            end
        end
    end.
  (** estructuralfeature_ext.go:51-62 *)
  Definition setFeatureDefault (f : nat) (v : gval) (w : world) : option world :=
    let x := features w f in
    match ftype x with
    | None => None
    | Some c =>
        match cdata (classifiers w c), cpackage (classifiers w c) with
        | Some d, Some p =>
            match pfactory (packages w p) with
            | None => None
            | Some g => match convert g d v with
                        | None => None
                        | Some s => Some (set_feature f (with_literal s x) w)
                        end
            end
        | _, _ => None
        end
    end.

  (** ** the type of a reference, ereference_ext.go:30-39 *)
  Definition getReferenceType (f : nat) (w : world) : world * option nat :=
    let x := features w f in
    match freftype x with
    | Some c => (w, Some c)
    | None => match ftype x with
              | Some c => match cdata (classifiers w c) with
                          | None => (set_feature f (with_reftype (Some c) x) w, Some c)
                          | Some _ => (w, None)
                          end
              | None => (w, None)
              end
    end.

  (** ** the number of a classifier: eclassifier_impl.go:67-72, eclassifier_ext.go:23-28 *)
  Fixpoint index_of (l : list nat) (c : nat) (i : Z) : Z :=
    match l with [] => -1 | d :: l' => if Nat.eqb d c then i else index_of l' c (i + 1) end.
  Definition getClassifierID (c : nat) (w : world) : world * Z :=
    let x := classifiers w c in
    if cnumber x =? -1
    then let i := match cpackage x with Some p => index_of (pclassifiers (packages w p)) c 0 | None => -1 end in
         (set_classifier c (with_number i x) w, i)
    else (w, cnumber x).

  (** ** the calls of a user *)
  Inductive op :=
  | AddClassifier (p c : nat) | RemoveClassifier (p c : nat) | Rename (c : nat) (n : str) | Annotate (c : nat) (n : option str)
  | Deliver (p : nat) (b : bool) | SetFactory (p f : nat)
  | SetInstanceTypeName (c : nat) (n : str) | SetSerializable (c : nat) (b : bool) | SetTypeDefault (c : nat) (v : gval)
  | SetType (f : nat) (t : option nat) | SetLiteral (f : nat) (s : str) | SetDefault (f : nat) (v : gval) | SetUpper (f : nat) (u : Z)
  | AskClassifier (p : nat) (n : str) | AskType (p : nat) (n : str) | AskName (e : elem)
  | AskDefault (f : nat) | AskTypeDefault (c : nat) | AskReferenceType (f : nat) | AskNumber (c : nat).

  Definition instance_name (n : str) (x : classifier) : classifier :=
    match cdata x with Some d => with_data (Some (mkD (denum d) n (dannotation d))) x | None => x end.

  Definition step (o : op) (w : world) : option world :=
    match o with
    | AddClassifier p c => Some (addClassifier p c w)
    | RemoveClassifier p c => Some (removeClassifier p c w)
    | Rename c n => Some (set_classifier c (with_name n (classifiers w c)) w)
    | Annotate c n => Some (set_classifier c (with_ext n (classifiers w c)) w)
    | Deliver p b => Some (set_package p (with_deliver b (packages w p)) w)
    | SetFactory p f => Some (setFactory p f w)
    | SetInstanceTypeName c n => Some (set_classifier c (instance_name n (classifiers w c)) w)
    | SetSerializable c b => Some (set_classifier c (with_serial b (classifiers w c)) w)
    | SetTypeDefault c v => Some (set_classifier c (with_value v true (classifiers w c)) w)
    | SetType f t => Some (set_feature f (with_type t (features w f)) w)
    | SetLiteral f s => Some (set_feature f (with_literal s (features w f)) w)
    | SetDefault f v => setFeatureDefault f v w
    | SetUpper f u => Some (set_feature f (with_upper u (features w f)) w)
    | AskClassifier p n => Some (fst (getEClassifier p n w))
    | AskType p n => match getType p n w with Some (w', _) => Some w' | None => None end
    | AskName e => match getName e w with Some (w', _) => Some w' | None => None end
    | AskDefault f => match getFeatureDefault f w with Some (w', _) => Some w' | None => None end
    | AskTypeDefault c => Some (fst (typeDefault c w))
    | AskReferenceType f => Some (fst (getReferenceType f w))
    | AskNumber c => Some (fst (getClassifierID c w))
    end.
  Fixpoint run (h : list op) (w : world) : option world :=
    match h with [] => Some w | o :: h' => match step o w with Some w' => run h' w' | None => None end end.
End Meta.
