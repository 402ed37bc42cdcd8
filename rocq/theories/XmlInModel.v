(** Model of the XML reader: ecore/xmldecoder.go, over the tokens of XmlTokenModel.

    Objects are numbered in the order of their creation, classes, packages and features are numbered.  What the reader
    asks of the metamodel is given by [meta].  Simplified or left out: references with an opposite which is not a
    container (so xlfkManyMove, lines 476-493, and the loop over sameDocumentProxies, lines 677-735, do not occur),
    document roots (lines 329-349), extended metadata of namespaces, xmlns prefix maps (lines 748-758) and
    DecodeObject.  Ids of an id manager are the texts in the document.  Whatever is outside of the model ends in
    [Unmodelled]. *)
From Coq Require Import String.
From Verif Require Import Base Chars StrconvModel FragmentModel XmlTokenModel.
From Verif Require XmlNsModel.
Open Scope Z_scope.

Inductive outcome (A : Type) := Ok (x : A) | Panic | Diverges | Unmodelled.
Arguments Ok {A} x. Arguments Panic {A}. Arguments Diverges {A}. Arguments Unmodelled {A}.
Definition obind' {A B} (r : outcome A) (f : A -> outcome B) : outcome B :=
  match r with Ok x => f x | Panic => Panic | Diverges => Diverges | Unmodelled => Unmodelled end.
Notation "'let+' x ':=' e 'in' f" := (obind' e (fun x => f)) (at level 200, x pattern, right associativity).
Definition of_panic {A} (o : option A) : outcome A := match o with Some x => Ok x | None => Panic end.

(** xmlLoadFeatureKind, lines 31-39, without xlfkManyMove *)
Inductive fkind := Single | Many | ManyAdd | Other.

(** what is read of the metamodel *)
Record meta (V : Type) := mkMeta {
  m_package : str -> option nat;          (* package registry: GetFactory *)
  m_class : nat -> str -> option nat;     (* ExtendedMetaData.GetType of a package, when it is a class *)
  m_abstract : nat -> bool;
  m_features : nat -> list nat;           (* GetEAllStructuralFeatures *)
  m_name : nat -> str;                    (* GetName *)
  m_xname : nat -> str;                   (* ExtendedMetaData.GetName *)
  m_kind : nat -> fkind;                  (* getLoadFeatureKind, lines 499-515 *)
  m_contain : nat -> bool;                (* a containment reference *)
  m_unique : nat -> bool;
  m_type : nat -> nat;                    (* GetEType of a reference *)
  m_idattr : nat -> option nat;           (* GetEIDAttribute of a class *)
  m_read : nat -> str -> V;               (* CreateFromString for the type of an attribute *)
  m_show : nat -> V -> str;               (* ConvertToString *)
  m_same : V -> V -> bool;                (* == *)
  m_digit : Z -> bool }.                  (* unicode.IsDigit from 128 on *)
Arguments m_package {V}. Arguments m_class {V}. Arguments m_abstract {V}. Arguments m_features {V}. Arguments m_name {V}.
Arguments m_xname {V}. Arguments m_kind {V}. Arguments m_contain {V}. Arguments m_unique {V}. Arguments m_type {V}.
Arguments m_idattr {V}. Arguments m_read {V}. Arguments m_show {V}. Arguments m_same {V}. Arguments m_digit {V}.

(** the options of NewXMLDecoder, lines 94-104, and the resource *)
Record options := mkOptions {
  op_id : str;              (* XML_OPTION_ID_ATTRIBUTE_NAME *)
  op_deferred : bool;       (* XML_OPTION_DEFERRED_REFERENCE_RESOLUTION *)
  op_root : bool;           (* XML_OPTION_DEFERRED_ROOT_ATTACHMENT *)
  op_manager : bool;        (* the resource has an id manager *)
  op_uri : str -> option str }.  (* handleProxy, lines 657-667: the proxy URI for a text, if it is a URI *)

Inductive rslot (V : Type) := Unset | SData (v : V) | SDatas (l : list V) | SRef (x : nat) | SRefs (l : list nat).
Arguments Unset {V}. Arguments SData {V} v. Arguments SDatas {V} l. Arguments SRef {V} x. Arguments SRefs {V} l.
Record robj (V : Type) := mkR {
  r_class : nat;
  r_slot : nat -> rslot V;
  r_parent : option (nat * nat);   (* container and containing feature *)
  r_proxy : option str;
  r_id : option str }.             (* id known to the id manager *)
Arguments mkR {V}. Arguments r_class {V}. Arguments r_slot {V}. Arguments r_parent {V}. Arguments r_proxy {V}. Arguments r_id {V}.

Inductive error := UnknownFeature (name : str) | UnknownPackage (space : str) | UnknownClass (space name : str) | Unresolved (id : str) | Syntax.
(** the types of lines 41-44 *)
Inductive rtype := TObject | TError | TFeature (f : nat).
(** lines 46-51 *)
Record xmlref := mkRef { x_object : nat; x_feature : nat; x_id : str; x_pos : Z }.

(** the decoder, lines 58-82, with the resource; stacks have their last element first *)
Record reader (V : Type) := mkReader {
  heap : nat -> robj V; next : nat;
  rcontents : list nat; errors : list error;
  objects : list (option nat); types : list rtype; elements : nat;
  textBuilder : option str;
  references : list xmlref;
  deferred : list nat;
  spaces : XmlNsModel.xmlns; prefixes : XmlNsModel.smap;
  attributes : list attr }.
Arguments mkReader {V}. Arguments heap {V}. Arguments next {V}. Arguments rcontents {V}. Arguments errors {V}. Arguments objects {V}. Arguments types {V}.
Arguments elements {V}. Arguments textBuilder {V}. Arguments references {V}. Arguments deferred {V}. Arguments spaces {V}. Arguments prefixes {V}. Arguments attributes {V}.

Section Reader.
Context {V : Type} (M : meta V) (op : options).
Notation state := (reader V).

Definition with_heap (h : nat -> robj V) (s : state) : state :=
  mkReader h (next s) (rcontents s) (errors s) (objects s) (types s) (elements s) (textBuilder s) (references s) (deferred s) (spaces s) (prefixes s) (attributes s).
Definition with_contents (c : list nat) (s : state) : state :=
  mkReader (heap s) (next s) c (errors s) (objects s) (types s) (elements s) (textBuilder s) (references s) (deferred s) (spaces s) (prefixes s) (attributes s).
Definition with_stacks (o : list (option nat)) (t : list rtype) (s : state) : state :=
  mkReader (heap s) (next s) (rcontents s) (errors s) o t (elements s) (textBuilder s) (references s) (deferred s) (spaces s) (prefixes s) (attributes s).
Definition with_elements (n : nat) (s : state) : state :=
  mkReader (heap s) (next s) (rcontents s) (errors s) (objects s) (types s) n (textBuilder s) (references s) (deferred s) (spaces s) (prefixes s) (attributes s).
Definition with_text (t : option str) (s : state) : state :=
  mkReader (heap s) (next s) (rcontents s) (errors s) (objects s) (types s) (elements s) t (references s) (deferred s) (spaces s) (prefixes s) (attributes s).
Definition with_references (r : list xmlref) (s : state) : state :=
  mkReader (heap s) (next s) (rcontents s) (errors s) (objects s) (types s) (elements s) (textBuilder s) r (deferred s) (spaces s) (prefixes s) (attributes s).
Definition with_deferred (d : list nat) (s : state) : state :=
  mkReader (heap s) (next s) (rcontents s) (errors s) (objects s) (types s) (elements s) (textBuilder s) (references s) d (spaces s) (prefixes s) (attributes s).
Definition with_spaces (n : XmlNsModel.xmlns) (m : XmlNsModel.smap) (s : state) : state :=
  mkReader (heap s) (next s) (rcontents s) (errors s) (objects s) (types s) (elements s) (textBuilder s) (references s) (deferred s) n m (attributes s).
Definition with_attributes (a : list attr) (s : state) : state :=
  mkReader (heap s) (next s) (rcontents s) (errors s) (objects s) (types s) (elements s) (textBuilder s) (references s) (deferred s) (spaces s) (prefixes s) a.
(** error, lines 790-792 *)
Definition with_error (e : error) (s : state) : state :=
  mkReader (heap s) (next s) (rcontents s) (errors s ++ [e]) (objects s) (types s) (elements s) (textBuilder s) (references s) (deferred s) (spaces s) (prefixes s) (attributes s).

(** EFactory.Create *)
Definition fresh (c : nat) : robj V := mkR c (fun _ => Unset) None None None.
Definition upd {A} (h : nat -> A) (a : nat) (x : A) : nat -> A := fun b => if Nat.eqb b a then x else h b.
Definition create (c : nat) (s : state) : nat * state :=
  (next s,
   mkReader (upd (heap s) (next s) (fresh c)) (S (next s)) (rcontents s) (errors s) (objects s) (types s) (elements s) (textBuilder s) (references s) (deferred s) (spaces s) (prefixes s) (attributes s)).
Definition set_slot (a f : nat) (v : rslot V) (s : state) : state :=
  let o := heap s a in with_heap (upd (heap s) a (mkR (r_class o) (upd (r_slot o) f v) (r_parent o) (r_proxy o) (r_id o))) s.
Definition set_parent (a : nat) (p : option (nat * nat)) (s : state) : state :=
  let o := heap s a in with_heap (upd (heap s) a (mkR (r_class o) (r_slot o) p (r_proxy o) (r_id o))) s.
Definition set_proxy (a : nat) (u : str) (s : state) : state :=
  let o := heap s a in with_heap (upd (heap s) a (mkR (r_class o) (r_slot o) (r_parent o) (Some u) (r_id o))) s.
Definition set_id (a : nat) (id : str) (s : state) : state :=
  let o := heap s a in with_heap (upd (heap s) a (mkR (r_class o) (r_slot o) (r_parent o) (r_proxy o) (Some id))) s.

Definition is_attached (s : state) (a : nat) : bool :=
  existsb (Nat.eqb a) (rcontents s) || match r_parent (heap s a) with Some _ => true | None => false end.
Definition datas (v : rslot V) : list V := match v with SDatas l => l | _ => [] end.
Definition refs (v : rslot V) : list nat := match v with SRefs l => l | _ => [] end.

(** getFeature, lines 760-773: the last feature with that name (eclass_ext.go:138-158), or else the first one with that extended name *)
Definition getFeature (c : nat) (name : str) : option nat :=
  match find (fun f => str_eqb (m_name M f) name) (rev (m_features M c)) with
  | Some f => Some f
  | None => find (fun f => str_eqb name (m_xname M f)) (m_features M c)
  end.

(** the objects as GetEObject of the resource (eresource_impl.go:237-351) sees them.  Without id manager, objects with
    the same ID attribute value are looked up in the order of their creation. *)
Definition object_ID (s : state) (a : nat) : str :=
  match m_idattr M (r_class (heap s a)) with
  | Some f => match r_slot (heap s a) f with SData v => m_show M f v | _ => [] end
  | None => []
  end.
Definition world_of (s : state) : world :=
  mkW (rcontents s) (fun a => existsb (Nat.eqb a) (rcontents s))
      (fun a => option_map fst (r_parent (heap s a))) (fun a => option_map snd (r_parent (heap s a)))
      (m_name M) (fun f => match m_kind M f with Many | ManyAdd => true | _ => false end)
      (fun a => m_features M (r_class (heap s a)))
      (fun a f => match m_kind M f with
                  | Single | Many => VData
                  | ManyAdd => VMany (refs (r_slot (heap s a) f))
                  | Other => VSingle (match r_slot (heap s a) f with SRef x => Some x | _ => None end)
                  end)
      (fun _ => false) (fun _ => []) (fun _ => FragmentModel.Other) (object_ID s)
      (if op_manager op then
         Some (fun a => r_id (heap s a),
               fun id => find (fun a => match r_id (heap s a) with Some i => str_eqb i id | None => false end) (seq 0 (next s)))
       else None)
      (filter (is_attached s) (seq 0 (next s)))
      (m_digit M).
Definition lookup (s : state) (id : str) : outcome (option nat) :=
  match GetEObject (world_of s) id with FragmentModel.Done x => Ok x | Panics => Panic | Loops => Unmodelled end.

(** what setFeatureValue stores *)
Inductive fvalue := FText (t : str) | FObject (a : nat) | FNil.

Definition add_ref (f : nat) (l : list nat) (x : nat) : list nat := if m_unique M f && existsb (Nat.eqb x) l then l else l ++ [x].
Definition add_data (f : nat) (l : list V) (x : V) : list V := if m_unique M f && existsb (fun y => m_same M x y) l then l else l ++ [x].
Definition insert_at {A} (l : list A) (i : nat) (x : A) : list A := firstn i l ++ [x] ++ skipn i l.
(** adding an object to a containment feature makes the owner its container; moving an object which is attached
    already is not modelled *)
Definition contain (a f x : nat) (s : state) : outcome state :=
  if m_contain M f then (if is_attached s x then Unmodelled else Ok (set_parent x (Some (a, f)) s)) else Ok s.
(** setFeatureValue, lines 447-497 *)
Definition setFeatureValue (o : option nat) (f : nat) (v : fvalue) (pos : Z) (s : state) : outcome state :=
  match o with
  | None => Panic
  | Some a =>
      let slot := r_slot (heap s a) f in
      match m_kind M f with
      | Single => match v with
                  | FText t => Ok (set_slot a f (SData (m_read M f t)) s)
                  | FObject _ => Panic
                  | FNil => Unmodelled
                  end
      | Many => match v with
                | _ => if pos =? -2 then Ok s
                       else match v with
                            | FText t => Ok (set_slot a f (SDatas (add_data f (datas slot) (m_read M f t))) s)
                            | FObject _ => Panic
                            | FNil => Unmodelled
                            end
                end
      | ManyAdd =>
          if pos =? -2 then (if m_contain M f then Unmodelled else Ok (set_slot a f (SRefs []) s))
          else match v with
               | FObject x =>
                   if (pos =? -1) || negb (Nat.eqb a x) then
                     let+ s := contain a f x s in Ok (set_slot a f (SRefs (add_ref f (refs slot) x)) s)
                   else if m_contain M f then Unmodelled
                   else let i := index_of x (refs slot) in
                        if i =? -1 then
                          (if pos >? zlen (refs slot) then Panic else Ok (set_slot a f (SRefs (insert_at (refs slot) (Z.to_nat pos) x)) s))
                        else
                          (* Move takes the old index first: the element at the position goes to the index *)
                          match nth_error (refs slot) (Z.to_nat pos) with
                          | None => Panic
                          | Some y =>
                              let rest := firstn (Z.to_nat pos) (refs slot) ++ skipn (S (Z.to_nat pos)) (refs slot) in
                              Ok (set_slot a f (SRefs (insert_at rest (Z.to_nat i) y)) s)
                          end
               | FText _ => Unmodelled
               | FNil => Unmodelled
               end
      | Other => match v with
                 | FObject x => let+ s := contain a f x s in
                                (if m_contain M f then match slot with SRef _ => Unmodelled | _ => Ok (set_slot a f (SRef x) s) end
                                 else Ok (set_slot a f (SRef x) s))
                 | FNil => if m_contain M f then Unmodelled else Ok (set_slot a f Unset s)
                 | FText _ => Unmodelled
                 end
      end
  end.

(** processObject, lines 316-323 *)
Definition processObject (o : option nat) (s : state) : state :=
  match o with
  | Some a => with_stacks (Some a :: objects s) (TObject :: types s) s
  | None => with_stacks (objects s) (TError :: types s) s
  end.

(** handleProxy, lines 657-674 *)
Definition handleProxy (a : nat) (id : str) (s : state) : state :=
  match op_uri op id with Some u => set_proxy a u s | None => s end.

(** XmlNsModel works on lists of natural numbers *)
Definition to_ns (s : str) : XmlNsModel.str := map Z.to_nat s.
Definition of_ns (s : XmlNsModel.str) : str := map Z.of_nat s.
(** xmlnamespaces.go:71-79; the empty text when the prefix is unknown *)
Definition getURI (s : state) (prefix : str) : outcome str :=
  let+ u := of_panic (XmlNsModel.getURI (spaces s) (to_ns prefix)) in
  Ok (match u with Some u => of_ns u | None => [] end).

Definition xsiURI : str := lit "http://www.w3.org/2001/XMLSchema-instance".
(** index > 0: a colon which is not the first character, lines 396-399 and 565-568 *)
Definition split_qname (q : str) : str * str := match cut q with Some (c :: p, l) => (c :: p, l) | _ => ([], q) end.
(** strings.Index *)
Fixpoint str_index (c : Z) (s : str) : Z :=
  match s with [] => -1 | x :: s' => if x =? c then 0 else let i := str_index c s' in if i =? -1 then -1 else i + 1 end.

(** isUserAttribute, lines 538-545, with notFeatures, line 93 *)
Definition isUserAttribute (space local : str) : bool :=
  negb (str_eqb space xsiURI && (str_eqb local (lit "type") || str_eqb local (lit "schemaLocation") || str_eqb local (lit "noNamespaceSchemaLocation"))).

(** the creation of an object for the attribute of another one never sees attributes (line 597), so it is written
    without handleAttributes: createObjectWithFactory, lines 364-376, createObjectFromFeatureType, lines 378-391,
    createObjectFromTypeName, lines 393-415 *)
Definition create_plain (c : option nat) (s : state) : option nat * state :=
  match c with Some c => if m_abstract M c then (None, s) else let '(a, s) := create c s in (Some a, s) | None => (None, s) end.
Definition proxy_from_feature (o f : nat) (s : state) : outcome (option nat * state) :=
  let '(r, s) := create_plain (Some (m_type M f)) s in
  let+ s := match r with Some a => setFeatureValue (Some o) f (FObject a) (-1) s | None => Ok s end in
  Ok (r, processObject r s).
Definition proxy_from_name (o : nat) (q : str) (f : nat) (s : state) : outcome (option nat * state) :=
  let '(prefix, local) := split_qname q in
  let+ space := getURI s prefix in
  match m_package M space with
  | None => Ok (None, with_error (UnknownPackage space) s)
  | Some p =>
      let '(r, s) := create_plain (m_class M p local) s in
      let s := match r with None => with_error (UnknownClass space local) s | Some _ => s end in
      let+ s := match r with Some a => setFeatureValue (Some o) f (FObject a) (-1) s | None => Ok s end in
      Ok (r, processObject r s)
  end.

(** the loop of setValueFromId, lines 591-648; without opposites mustAdd is true, and references are resolved at once
    unless isResolveDeferred *)
Fixpoint ids_loop (o f : nat) (tokens : list str) (q : str) (pos : Z) (later : list xmlref) (s : state) : outcome (Z * list xmlref * state) :=
  match tokens with
  | [] => Ok (pos, later, s)
  | id :: tokens' =>
      let index := str_index 35 id in
      if 0 <? index then
        let+ (r, s) := match q with [] => proxy_from_feature o f s | _ => proxy_from_name o q f s end in
        let s := match r with Some a => handleProxy a id s | None => s end in
        match objects s with
        | [] => Panic
        | _ :: rest => ids_loop o f tokens' [] (pos + 1) later (with_stacks rest (types s) s)
        end
      else if (index =? -1) && negb (str_index 58 id =? -1) then ids_loop o f tokens' id pos later s
      else
        let id := if index =? 0 then tl id else id in
        let later' := later ++ [mkRef o f id pos] in
        if op_deferred op then ids_loop o f tokens' [] (pos + 1) later' s
        else
          let+ x := lookup s id in
          match x with
          | Some x => let+ s := setFeatureValue (Some o) f (FObject x) (-1) s in ids_loop o f tokens' [] (pos + 1) later s
          | None => ids_loop o f tokens' [] (pos + 1) later' s
          end
  end.
(** setValueFromId, lines 583-655 *)
Definition setValueFromId (o f : nat) (ids : str) (s : state) : outcome state :=
  let+ (pos, later, s) := ids_loop o f (split 32 ids) [] 0 [] s in
  if pos =? 0 then setFeatureValue (Some o) f FNil (-2) s
  else Ok (with_references (references s ++ later) s).

(** setAttributeValue, lines 562-581; the name space is not used by getFeature *)
Definition setAttributeValue (o : nat) (qname value : str) (s : state) : outcome state :=
  let local := snd (split_qname qname) in
  match getFeature (r_class (heap s o)) local with
  | None => Ok (with_error (UnknownFeature local) s)
  | Some f =>
      match m_kind M f with
      | Single | Many => setFeatureValue (Some o) f (FText value) (-2) s
      | ManyAdd | Other => setValueFromId o f value s
      end
  end.

(** handleAttributes, lines 517-536 *)
Fixpoint handleAttributes (o : nat) (l : list attr) (s : state) : outcome state :=
  match l with
  | [] => Ok s
  | (uri, name, value) :: l' =>
      let+ s :=
        (if str_eqb name (op_id op) then Ok (if op_manager op then set_id o value s else s)
         else if str_eqb name (lit "href") then Ok (handleProxy o value s)
         else if negb (str_eqb name (lit "xmlns")) && negb (str_eqb uri (lit "xmlns")) && isUserAttribute uri name
         then setAttributeValue o name value s
         else Ok s) in
      handleAttributes o l' s
  end.

(** createObjectWithFactory, lines 364-376, with attributes *)
Definition createObject (c : option nat) (s : state) : outcome (option nat * state) :=
  match create_plain c s with
  | (Some a, s) => let+ s := handleAttributes a (attributes s) s in Ok (Some a, s)
  | (None, s) => Ok (None, s)
  end.

(** getAttributeValue, lines 237-246; the empty text when there is none *)
Fixpoint getAttributeValue (uri local : str) (l : list attr) : str :=
  match l with
  | [] => []
  | (u, n, v) :: l' => if str_eqb u uri && str_eqb n local then v else getAttributeValue uri local l'
  end.

(** createObjectFromFeatureType, lines 378-391 *)
Definition createObjectFromFeatureType (o f : nat) (s : state) : outcome state :=
  let+ (r, s) := createObject (Some (m_type M f)) s in
  let+ s := match r with Some a => setFeatureValue (Some o) f (FObject a) (-1) s | None => Ok s end in
  Ok (processObject r s).
(** createObjectFromTypeName, lines 393-415 *)
Definition createObjectFromTypeName (o : nat) (q : str) (f : nat) (s : state) : outcome state :=
  let '(prefix, local) := split_qname q in
  let+ space := getURI s prefix in
  match m_package M space with
  | None => Ok (with_error (UnknownPackage space) s)
  | Some p =>
      let+ (r, s) := createObject (m_class M p local) s in
      let s := match r with None => with_error (UnknownClass space local) s | Some _ => s end in
      let+ s := match r with Some a => setFeatureValue (Some o) f (FObject a) (-1) s | None => Ok s end in
      Ok (processObject r s)
  end.

(** handleFeature, lines 417-445 *)
Definition handleFeature (local : str) (s : state) : outcome state :=
  match objects s with
  | Some o :: _ =>
      match getFeature (r_class (heap s o)) local with
      | Some f =>
          match m_kind M f with
          | Single | Many => Ok (with_text (Some []) (with_stacks (None :: objects s) (TFeature f :: types s) s))
          | ManyAdd | Other =>
              match getAttributeValue xsiURI (lit "type") (attributes s) with
              | [] => createObjectFromFeatureType o f s
              | q => createObjectFromTypeName o q f s
              end
          end
      | None => Ok (with_error (UnknownFeature local) s)
      end
  | _ => Ok (with_error (UnknownFeature local) (with_stacks (objects s) (TError :: types s) s))
  end.

(** adding roots to the contents of the resource; moving an object which is attached already is not modelled *)
Definition attach (l : list nat) (s : state) : outcome state :=
  if existsb (is_attached s) l then Unmodelled else Ok (with_contents (rcontents s ++ l) s).

(** createTopObject, lines 325-362, and processElement, lines 295-308 *)
Definition processElement (space local : str) (s : state) : outcome state :=
  match objects s with
  | [] =>
      match m_package M space with
      | Some p =>
          let+ (r, s) := createObject (m_class M p local) s in
          let s := match r with None => with_error (UnknownClass space local) s | Some _ => s end in
          let s := processObject r s in
          match r with
          | Some a => if op_root op then Ok (with_deferred (deferred s ++ [a]) s) else attach [a] s
          | None => Ok s
          end
      | None => Ok (with_error (UnknownPackage space) s)
      end
  | _ => handleFeature local s
  end.

(** handlePrefixMapping, lines 270-280, and startPrefixMapping, lines 282-293 *)
Fixpoint handlePrefixMapping (l : list attr) (s : state) : outcome state :=
  let declare p v (s : state) :=
    let+ n := of_panic (XmlNsModel.declarePrefix (spaces s) (to_ns p) (to_ns v)) in
    match XmlNsModel.startPrefixMapping (prefixes s) (to_ns p) (to_ns v) with
    | XmlNsModel.Done m => Ok (with_spaces (fst n) m s)
    | XmlNsModel.Diverges => Diverges
    end in
  match l with
  | [] => Ok s
  | (space, local, value) :: l' =>
      let+ s := (if str_eqb space (lit "xmlns") then declare local value s
                 else if str_eqb space [] && str_eqb local (lit "xmlns") then declare [] value s
                 else Ok s) in
      handlePrefixMapping l' s
  end.

(** startElement, lines 170-179; handleSchemaLocation does nothing *)
Definition startElement (space local : str) (l : list attr) (s : state) : outcome state :=
  let s := with_attributes l (with_elements (S (elements s)) s) in
  let+ n := of_panic (XmlNsModel.pushContext (spaces s)) in
  let+ s := handlePrefixMapping l (with_spaces n (prefixes s) s) in
  processElement space local s.

(** the last loop of handleReferences, lines 737-745 *)
Fixpoint handleReferences (l : list xmlref) (s : state) : outcome state :=
  match l with
  | [] => Ok s
  | r :: l' =>
      let+ x := lookup s (x_id r) in
      let+ s := match x with
                | Some x => setFeatureValue (Some (x_object r)) (x_feature r) (FObject x) (x_pos r) s
                | None => Ok (with_error (Unresolved (x_id r)) s)
                end in
      handleReferences l' s
  end.

(** endElement, lines 181-229 *)
Definition endElement (s : state) : outcome state :=
  let s := with_elements (pred (elements s)) s in
  let o := match objects s with x :: _ => x | [] => None end in
  let ty := match types s with t :: _ => Some t | [] => None end in
  let s := with_stacks (tl (objects s)) (tl (types s)) s in
  let+ s :=
    match textBuilder s with
    | None => Ok s
    | Some t =>
        match ty with
        | Some TObject => match t, o with
                          | [], _ => Ok s
                          | _, Some a => Ok (handleProxy a t s)
                          | _, None => Panic
                          end
        | Some TError => Ok s
        | Some (TFeature f) =>
            let o := match o, objects s with None, x :: _ => x | _, _ => o end in
            setFeatureValue o f (FText t) (-1) s
        | None => Panic
        end
    end in
  let s := with_text None s in
  let+ s := match elements s with
            | O => let+ s := attach (deferred s) s in handleReferences (references s) s
            | _ => Ok s
            end in
  let+ n := of_panic (XmlNsModel.popContext (spaces s)) in
  Ok (with_spaces (fst n) (prefixes s) s).

(** text, lines 794-798 *)
Definition addText (t : str) (s : state) : state :=
  match textBuilder s with Some b => with_text (Some (b ++ t)) s | None => s end.

(** decodeTopObject, lines 144-168; [ok] is false when the tokenizer stops with an error *)
Definition step (t : token) (s : state) : outcome state :=
  match t with
  | TStart space local l => startElement space local l s
  | TEnd => endElement s
  | TText t => Ok (addText t s)
  | TOther => Ok s
  end.
Fixpoint steps (ts : list token) (s : state) : outcome state :=
  match ts with [] => Ok s | t :: ts' => let+ s := step t s in steps ts' s end.
Definition new_reader : state :=
  mkReader (fun _ => fresh 0) 0 [] [] [] [] 0 None [] [] XmlNsModel.newXMLNamespaces (fun _ => None) [].
Definition decode (text : str) : outcome state :=
  let '(ts, ok) := tokens_of text in
  let+ s := steps ts new_reader in
  Ok (if ok then s else with_error Syntax s).
End Reader.
