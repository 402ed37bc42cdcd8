(** Documents: trees of objects, what of them can be saved and loaded, and what a resource holds which has loaded one.

    The objects of a document are numbered in the order in which they appear in the text, references to objects of other
    resources included: these become proxies. *)
From Coq Require Import String Sorted Permutation.
From Verif Require Import Base Chars StrconvModel FragmentModel FragmentSpec XmlTokenModel XmlInModel.
From Verif Require XmlOutModel XmlOutSpec XmlTree XmlNsModel.
Open Scope Z_scope.

(** an object with its class, its id for the id manager, and its features with their values *)
Inductive dobj (V : Type) := DObj (c : nat) (id : str) (slots : list (nat * dval V))
with dval (V : Type) :=
| DUnset
| DData (v : V)
| DDatas (l : list V)
| DLinks (l : list nat)            (* objects of the document *)
| DHrefs (l : list (nat * str))    (* objects of other resources: class and text of the URI *)
| DKids (l : list (dobj V)).
Arguments DObj {V}. Arguments DUnset {V}. Arguments DData {V} v. Arguments DDatas {V} l. Arguments DLinks {V} l. Arguments DHrefs {V} l. Arguments DKids {V} l.
Definition d_class {V} (d : dobj V) : nat := match d with DObj c _ _ => c end.
Definition d_id {V} (d : dobj V) : str := match d with DObj _ id _ => id end.
Definition d_slots {V} (d : dobj V) : list (nat * dval V) := match d with DObj _ _ l => l end.

(** number of objects *)
Fixpoint dsize {V} (d : dobj V) : nat :=
  match d with
  | DObj _ _ slots =>
      S (fold_right (fun fv n => (match snd fv with
                                  | DKids l => fold_right (fun k m => (dsize k + m)%nat) 0%nat l
                                  | DHrefs l => length l
                                  | _ => 0%nat
                                  end + n)%nat) 0%nat slots)
  end.
Definition kids_size {V} (l : list (dobj V)) : nat := fold_right (fun k m => (dsize k + m)%nat) 0%nat l.
Definition vsize {V} (v : dval V) : nat := match v with DKids l => kids_size l | DHrefs l => length l | _ => 0%nat end.

(** how names, fragments and ids are written *)
Record writing := mkWriting {
  w_class : nat -> str;                        (* getClassQName *)
  w_feature : nat -> XmlOutModel.feature;
  w_frag : nat -> str;                         (* GetURIFragment of the objects *)
  w_spaces : list (str * str) }.               (* the declared prefixes with their name spaces *)

Section Documents.
Context {V : Type} (M : meta V) (op : options) (W : writing).
Notation fname f := (XmlOutModel.f_name (w_feature W f)).

(** ** What the writer is given *)
Definition link_target (k : nat) : XmlOutModel.target := XmlOutModel.mkT [] false XmlOutModel.InThis false None [] (35 :: w_frag W k).
Definition href_target (x : nat * str) : XmlOutModel.target := XmlOutModel.mkT (w_class W (fst x)) false XmlOutModel.Elsewhere false None (snd x) [].
Definition is_many (f : nat) : bool := match m_kind M f with Many | ManyAdd => true | _ => false end.
Fixpoint written (d : dobj V) : XmlOutModel.obj :=
  match d with
  | DObj c id slots =>
      XmlOutModel.mkO (XmlOutModel.mkT (w_class W c) false XmlOutModel.InThis false (if op_manager op then Some id else None) [] [])
        (map (fun fv =>
           let '(f, v) := fv in
           match v with
           | DUnset => XmlOutModel.mkS (w_feature W f) false XmlOutModel.VNil
           | DData v => XmlOutModel.mkS (w_feature W f) true (XmlOutModel.VData (m_show M f v))
           | DDatas l => XmlOutModel.mkS (w_feature W f) true (XmlOutModel.VDatas (map (fun v => Some (m_show M f v)) l))
           | DLinks l => XmlOutModel.mkS (w_feature W f) true
                           (if is_many f then XmlOutModel.VRefs (map (fun k => Some (link_target k)) l)
                            else match l with k :: _ => XmlOutModel.VRef (link_target k) | [] => XmlOutModel.VNil end)
           | DHrefs l => XmlOutModel.mkS (w_feature W f) true
                           (if is_many f then XmlOutModel.VRefs (map (fun x => Some (href_target x)) l)
                            else match l with x :: _ => XmlOutModel.VRef (href_target x) | [] => XmlOutModel.VNil end)
           | DKids l => XmlOutModel.mkS (w_feature W f) true
                          (if is_many f then XmlOutModel.VChildren (map (fun k => Some (written k)) l)
                           else match l with k :: _ => XmlOutModel.VChild (written k) | [] => XmlOutModel.VNil end)
           end) slots)
  end.
Definition space_attribute (pu : str * str) : str * str := (match fst pu with [] => lit "xmlns" | p => lit "xmlns:" ++ p end, snd pu).
(** saving the document: encodeTopObject of the XML writer *)
Definition save (version encoding : str) (d : dobj V) : option str :=
  XmlOutModel.encodeTopObject version encoding (op_id op) (Some (w_class W (d_class d))) (map space_attribute (w_spaces W)) (written d).

(** ** Which documents *)
Definition space_of (p : str) : str := match find (fun pu => str_eqb p (fst pu)) (w_spaces W) with Some pu => snd pu | None => [] end.

(** the prefixes: distinct, and not taken for other attributes *)
Record spaces_ok : Prop := {
  sp_distinct : NoDup (map fst (w_spaces W));
  sp_prefix : forall p u, In (p, u) (w_spaces W) -> p = [] \/ (XmlOutSpec.name p /\ ~ In 58 p);
  sp_chars : forall p u c, In (p, u) (w_spaces W) -> In c p -> 0 <= c;
  sp_not : forall p u, In (p, u) (w_spaces W) -> ~ In p [lit "href"; lit "xmlns"; lit "xml"] /\ (p = [] -> op_id op <> lit "xmlns") /\ p <> op_id op;
  sp_uri : forall p u, In (p, u) (w_spaces W) -> XmlTree.plain [34] u }.

(** a class whose qualified name leads to the class, and which can be instantiated *)
Definition qualified (q p l : str) : Prop := XmlOutSpec.name l /\ ~ In 58 l /\ ((p = [] /\ q = l /\ l <> lit "xmlns") \/ (XmlOutSpec.name p /\ ~ In 58 p /\ ~ In p [lit "xmlns"; lit "xml"] /\ q = p ++ 58 :: l)).
Definition class_ok (c : nat) : Prop :=
  m_abstract M c = false /\
  exists p l pk, qualified (w_class W c) p l /\ (p = [] \/ In p (map fst (w_spaces W))) /\ (forall x, In x p -> 0 <= x) /\ (forall x, In x (w_class W c) -> allowed x = true) /\
    m_package M (space_of p) = Some pk /\ m_class M pk l = Some c.

(** a feature of class [c] whose name leads to the feature, and which the writer sees like the reader *)
Record feature_ok (c f : nat) : Prop := {
  fo_name : XmlOutSpec.name (fname f) /\ ~ In 58 (fname f);
  fo_found : getFeature M c (fname f) = Some f;
  fo_not : ~ In (fname f) [lit "href"; lit "xmlns"] /\ fname f <> op_id op;
  fo_saved : XmlOutModel.f_transient (w_feature W f) = false /\ XmlOutModel.f_container (w_feature W f) = false /\ XmlOutModel.f_serializable (w_feature W f) = true /\ XmlOutModel.f_any (w_feature W f) = false;
  fo_reference : XmlOutModel.f_reference (w_feature W f) = match m_kind M f with Single | Many => false | _ => true end;
  fo_many : XmlOutModel.f_many (w_feature W f) = is_many f;
  fo_type : XmlOutModel.f_reference (w_feature W f) = true ->
            XmlOutModel.f_containment (w_feature W f) = m_contain M f /\ XmlOutModel.f_type (w_feature W f) = w_class W (m_type M f) /\
            XmlOutModel.f_abstract (w_feature W f) = m_abstract M (m_type M f) }.

Definition declares_xsi : Prop := In (lit "xsi", xsiURI) (w_spaces W).
(** the class which the proxy for an object of class [c] gets *)
Definition proxy_class (f c : nat) : nat := if negb (str_eqb (w_class W (m_type M f)) (w_class W c)) && m_abstract M (m_type M f) then c else m_type M f.

(** the values of a list are kept by a list which refuses values it holds already *)
Definition kept (f : nat) (l : list V) : Prop := m_unique M f = false \/ ForallOrdPairs (fun x y => m_same M y x = false) l.
(** a value is not lost by its text *)
Definition shown (f : nat) (v : V) : Prop := m_read M f (m_show M f v) = v.

(** a list for a many-valued reference, one object for a single-valued one *)
Definition shaped {A} (f : nat) (l : list A) : Prop := match m_kind M f with ManyAdd => l <> [] | Other => length l = 1%nat | _ => False end.

(** the texts which the fragments of the links have to be *)
Definition frag_ok (k : nat) : Prop := XmlTree.plain [34] (w_frag W k) /\ ~ In 32 (w_frag W k).

Inductive fits (target : nat -> Prop) : nat -> nat -> dval V -> Prop :=
| fit_unset c f : fits target c f DUnset
| fit_data c f v : feature_ok c f -> m_kind M f = Single -> shown f v -> (forall x, In x (m_show M f v) -> allowed x = true) -> fits target c f (DData v)
| fit_datas c f l : feature_ok c f -> m_kind M f = Many -> l <> [] -> (forall v, In v l -> shown f v /\ XmlTree.plain_text (m_show M f v)) -> kept f l -> fits target c f (DDatas l)
| fit_links c f l : feature_ok c f -> shaped f l -> m_contain M f = false -> NoDup l -> (forall k, In k l -> target k /\ frag_ok k) -> fits target c f (DLinks l)
| fit_hrefs c f l : feature_ok c f -> shaped f l -> m_contain M f = false ->
    (forall c' u, In (c', u) l -> class_ok c' /\ m_abstract M (proxy_class f c') = false /\ (proxy_class f c' <> m_type M f -> declares_xsi) /\
                                  XmlTree.plain [34] u /\ u <> [] /\ op_uri op u <> None) -> fits target c f (DHrefs l)
| fit_kids c f l : feature_ok c f -> shaped f l -> m_contain M f = true ->
    (forall d, In d l -> (w_class W (d_class d) = w_class W (m_type M f) -> d_class d = m_type M f) /\ (w_class W (d_class d) <> w_class W (m_type M f) -> declares_xsi) /\ valid target d) ->
    fits target c f (DKids l)
with valid (target : nat -> Prop) : dobj V -> Prop :=
| valid_obj c id slots : class_ok c -> NoDup (map fst slots) -> (op_manager op = true -> XmlTree.plain [34] id) ->
    (forall f v, In (f, v) slots -> fits target c f v) -> valid target (DObj c id slots).

(** the id attribute *)
Definition id_attribute_ok : Prop :=
  op_id op <> lit "href" /\ (op_manager op = true -> XmlOutSpec.name (op_id op) /\ ~ In 58 (op_id op) /\ op_id op <> lit "type" /\ op_id op <> lit "xmlns").

(** ** What the resource holds *)
(** numbers of the objects of a list, from [b] on *)
Fixpoint kids_at (b : nat) (l : list (dobj V)) : list nat := match l with [] => [] | d :: l' => b :: kids_at (b + dsize d) l' end.
Fixpoint slots_at (b : nat) (slots : list (nat * dval V)) : list (nat * dval V * nat) :=
  match slots with [] => [] | (f, v) :: l => (f, v, b) :: slots_at (b + vsize v) l end.
Definition reference (f : nat) (l : list nat) : rslot V :=
  if is_many f then SRefs l else match l with x :: _ => SRef x | [] => Unset end.
(** the value of a feature of object [a] whose objects are numbered from [b] on; [links] tells the value of a reference to objects of
    the document *)
Definition value_at (links : nat -> nat -> list nat -> rslot V) (a f : nat) (v : dval V) (b : nat) : rslot V :=
  match v with
  | DUnset => Unset
  | DData v => SData v
  | DDatas l => SDatas l
  | DLinks l => links a f l
  | DHrefs l => reference f (seq b (length l))
  | DKids l => reference f (kids_at b l)
  end.
Definition slot_at (links : nat -> nat -> list nat -> rslot V) (a : nat) (slots : list (nat * dval V * nat)) (f : nat) : rslot V :=
  match find (fun x => Nat.eqb (fst (fst x)) f) slots with
  | Some (f, v, b) => value_at links a f v b
  | None => Unset
  end.
(** the objects of a document whose first one is number [b] *)
Fixpoint expect (links : nat -> nat -> list nat -> rslot V) (d : dobj V) (b : nat) (parent : option (nat * nat)) {struct d} : list (robj V) :=
  match d with
  | DObj c id slots =>
      mkR c (slot_at links b (slots_at (S b) slots)) parent None (if op_manager op then Some id else None) ::
      (fix go (slots : list (nat * dval V)) (n : nat) : list (robj V) :=
         match slots with
         | [] => []
         | (f, v) :: rest =>
             match v with
             | DKids l =>
                 (fix kids (l : list (dobj V)) (n : nat) : list (robj V) :=
                    match l with [] => [] | k :: l' => expect links k n (Some (b, f)) ++ kids l' (n + dsize k)%nat end) l n
             | DHrefs l => map (fun x => mkR (proxy_class f (fst x)) (fun _ => Unset) None (op_uri op (snd x)) None) l
             | _ => []
             end ++ go rest (n + vsize v)%nat
         end) slots (S b)
  end.
(** a reference to objects of the document holds these objects, in their order *)
Definition exact (a f : nat) (l : list nat) : rslot V := reference f l.
Definition same_object (o o' : robj V) : Prop :=
  r_class o = r_class o' /\ r_parent o = r_parent o' /\ r_proxy o = r_proxy o' /\ r_id o = r_id o' /\ forall f, r_slot o f = r_slot o' f.
(** the resource holds exactly the document: one root, the objects, and no errors *)
Definition holds_document (d : dobj V) (s : reader V) : Prop :=
  rcontents s = [0%nat] /\ errors s = [] /\ next s = dsize d /\
  forall a o, nth_error (expect exact d 0 None) a = Some o -> same_object (heap s a) o.

(** ** The resource which is saved *)
Definition document (d : dobj V) : reader V :=
  mkReader (fun a => nth a (expect exact d 0 None) (fresh 0)) (dsize d) [0%nat] [] [] [] 0 None [] [] XmlNsModel.newXMLNamespaces (fun _ => None) [].
(** object [k] of it can be addressed (see FragmentSpec), and its fragment is the one which is written *)
Definition linkable (d : dobj V) (k : nat) : Prop :=
  let w := world_of M op (document d) in
  within w k /\ (has_id w k \/ addressable_path w k) /\ identified w k /\ exists n, forall fuel, (n <= fuel)%nat -> GetURIFragment w fuel k = FragmentModel.Done (w_frag W k).
End Documents.
