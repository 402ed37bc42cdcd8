(** Model of the XML writer: ecore/xmlstring.go and the saving of objects in ecore/xmlencoder.go.

    Inputs computed elsewhere are given: qualified names (getFeatureQName and getClassQName, modelled in
    XmlNsModel), texts of values (ConvertToString), ids, hrefs and fragments.  Line wrapping never happens
    because lineWidth stays MaxInt, so startAttribute and addNil always write a blank.  [None] is a panic. *)
From Coq Require Import String.
From Verif Require Import Base Chars.
Open Scope Z_scope.

(** ** xmlString: ecore/xmlstring.go *)

(** lines 8-23; only two segments ever exist, the second one is created by the first mark *)
Record xml := mkX {
  x_first : str;            (* segments[0] *)
  x_second : option str;    (* segments[1] *)
  x_back : bool;            (* currentSegment is segments[0] again (resetToMark) *)
  x_names : list str;       (* elementNames, last one first *)
  x_depth : Z;
  x_start : bool }.         (* lastElementIsStart *)

(** lines 27-39 *)
Definition newXml : xml := mkX [] None false [] 0 false.

(** write, lines 41-48 *)
Definition text_of (s : xml) : str := x_first s ++ match x_second s with Some t => t | None => [] end.

(** add, lines 50-55, and addLine, lines 57-60 *)
Definition add (t : str) (s : xml) : xml :=
  match x_second s with
  | Some u => if x_back s then mkX (x_first s ++ t) (Some u) true (x_names s) (x_depth s) (x_start s)
              else mkX (x_first s) (Some (u ++ t)) false (x_names s) (x_depth s) (x_start s)
  | None => mkX (x_first s ++ t) None (x_back s) (x_names s) (x_depth s) (x_start s)
  end.
Definition addLine (s : xml) : xml := add [10] s.

Definition set_start (b : bool) (s : xml) : xml := mkX (x_first s) (x_second s) (x_back s) (x_names s) (x_depth s) b.
Definition set_depth (d : Z) (s : xml) : xml := mkX (x_first s) (x_second s) (x_back s) (x_names s) d (x_start s).
Definition set_names (n : list str) (s : xml) : xml := mkX (x_first s) (x_second s) (x_back s) n (x_depth s) (x_start s).

(** getElementIndentWithExtra, lines 185-191: two blanks per level; a negative index panics *)
Definition indent (extra : Z) (s : xml) : option str :=
  let nesting := x_depth s + extra - 1 in
  if nesting <? 0 then None else Some (repeat 32 (2 * Z.to_nat nesting)%nat).

(** closeStartElement, lines 79-83 *)
Definition closeStartElement (s : xml) : xml := set_start false (addLine (add [62] s)).
Definition close_if_start (s : xml) : xml := if x_start s then closeStartElement s else s.

(** mark, lines 201-206, called once by startElement *)
Definition mark (s : xml) : xml :=
  match x_second s with Some _ => s | None => mkX (x_first s) (Some []) false (x_names s) (x_depth s) (x_start s) end.

(** startElement, lines 62-77 *)
Definition startElement (name : str) (s : xml) : option xml :=
  let s := close_if_start s in
  let s := set_names (name :: x_names s) s in
  if zlen name >? 0 then
    let s := set_depth (x_depth s + 1) s in
    let? i := indent 0 s in
    Some (mark (set_start true (add name (add [60] (add i s)))))
  else Some s.

(** removeLast, lines 107-115 *)
Definition removeLast (s : xml) : option (str * xml) :=
  match x_names s with
  | [] => None
  | n :: names => let s := set_names names s in Some (n, if str_eqb n [] then s else set_depth (x_depth s - 1) s)
  end.

(** endEmptyElement, lines 100-105 *)
Definition endEmptyElement (s : xml) : option xml :=
  let? r := removeLast s in
  Some (set_start false (addLine (add [47; 62] (snd r)))).

(** endElement, lines 85-98 *)
Definition endElement (s : xml) : option xml :=
  if x_start s then endEmptyElement s
  else
    let? r := removeLast s in
    let '(name, s) := r in
    if str_eqb name [] then Some s
    else
      let? i := indent 1 s in
      Some (addLine (add [62] (add name (add [60; 47] (add i s))))).

(** addAttribute, lines 117-140 *)
Definition addAttribute (name value : str) (s : xml) : xml := add [34] (add value (add [61; 34] (add name (add [32] s)))).

(** addNil, lines 142-161 *)
Definition addNil (name : str) (s : xml) : option xml :=
  let s := close_if_start s in
  let s := set_depth (x_depth s + 1) s in
  let? i := indent 0 s in
  let s := add (lit "xsi:nil=""true""/>") (add [32] (add name (add [60] (add i s)))) in
  Some (set_start false (addLine (set_depth (x_depth s - 1) s))).

(** addContent, lines 163-179 *)
Definition addContent (name content : str) (s : xml) : option xml :=
  let s := close_if_start s in
  let s := set_depth (x_depth s + 1) s in
  let? i := indent 0 s in
  let s := add [60; 47] (add content (add [62] (add name (add [60] (add i s))))) in
  let s := set_depth (x_depth s - 1) s in
  Some (set_start false (addLine (add [62] (add name s)))).

(** resetToFirstElementMark, lines 208-216 *)
Definition resetToFirstElementMark (s : xml) : xml :=
  match x_second s with Some _ => mkX (x_first s) (x_second s) true (x_names s) (x_depth s) (x_start s) | None => s end.

(** golang.org/x/net/html.EscapeString *)
Definition escape1 (c : Z) : str :=
  if c =? 38 then lit "&amp;" else if c =? 39 then lit "&#39;" else if c =? 60 then lit "&lt;" else if c =? 62 then lit "&gt;"
  else if c =? 34 then lit "&#34;" else if c =? 13 then lit "&#13;" else [c].
Definition escape (s : str) : str := flat_map escape1 s.

(** ** Objects *)

(** a structural feature: what getSaveFeatureKind (lines 562-619) and the save functions read *)
Record feature := mkF {
  f_name : str; f_transient : bool; f_many : bool; f_unsettable : bool; f_reference : bool; f_containment : bool;
  f_container : bool;      (* has a containment opposite *)
  f_serializable : bool;
  f_type : str;            (* qualified name of its type *)
  f_any : bool;            (* its type is EObject *)
  f_abstract : bool }.     (* its type is an abstract class *)

Inductive place := InThis | Nowhere | Elsewhere.  (* EResource of an object *)

(** an object seen from a reference *)
Record target := mkT {
  t_class : str; t_proxy : bool; t_place : place;
  t_direct : bool;         (* EInternalResource() is not nil *)
  t_id : option str;       (* what the id manager answers, when ids are saved *)
  t_href : str;            (* getHRef; empty when dangling *)
  t_idref : str }.         (* getIDRef *)

Inductive obj := mkO (o_target : target) (o_slots : list slot)
with slot := mkS (s_feature : feature) (s_set : bool) (s_value : value)  (* s_set: shouldSaveFeature, lines 558-560 *)
with value :=
  | VNil
  | VData (text : str)
  | VDatas (texts : list (option str))
  | VRef (t : target)
  | VRefs (ts : list (option target))
  | VChild (o : obj)
  | VChildren (os : list (option obj)).

Definition o_target (o : obj) : target := match o with mkO t _ => t end.
Definition o_slots (o : obj) : list slot := match o with mkO _ l => l end.

Inductive kind := Transient | DataTypeSingle | DataTypeSingleNillable | DataTypeMany
  | ContainSingle | ContainMany | ContainSingleUnsettable | ContainManyUnsettable
  | HrefSingle | HrefMany | HrefSingleUnsettable | HrefManyUnsettable.

(** getSaveFeatureKind, lines 562-619 *)
Definition getSaveFeatureKind (f : feature) : kind :=
  if f_transient f then Transient
  else if f_reference f then
    if f_containment f then
      if f_many f then (if f_unsettable f then ContainManyUnsettable else ContainMany)
      else (if f_unsettable f then ContainSingleUnsettable else ContainSingle)
    else if f_container f then Transient
    else if f_many f then (if f_unsettable f then HrefManyUnsettable else HrefMany)
    else (if f_unsettable f then HrefSingleUnsettable else HrefSingle)
  else if negb (f_serializable f) then Transient
  else if f_many f then DataTypeMany
  else if f_unsettable f then DataTypeSingleNillable
  else DataTypeSingle.

Definition isNil (v : value) : bool := match v with VNil => true | _ => false end.
(** isEmpty, lines 554-556: the type assertion on EList panics *)
Definition isEmpty (v : value) : option bool :=
  match v with
  | VDatas l => Some (match l with [] => true | _ => false end)
  | VRefs l => Some (match l with [] => true | _ => false end)
  | VChildren l => Some (match l with [] => true | _ => false end)
  | _ => None
  end.

Inductive resource_kind := RSkip | RSame | RCross.
(** getSaveResourceKindSingle, lines 627-640 *)
Definition resource_kind_single (v : value) : resource_kind :=
  match v with
  | VRef t => if t_proxy t then RCross else match t_place t with InThis | Nowhere => RSame | Elsewhere => RCross end
  | _ => RSkip
  end.
(** getSaveResourceKindMany, lines 642-662 *)
Fixpoint resource_kind_refs (l : list (option target)) : resource_kind :=
  match l with
  | [] => RSame
  | None :: _ => RSkip
  | Some t :: l' => if t_proxy t then RCross else match t_place t with Elsewhere => RCross | _ => resource_kind_refs l' end
  end.
Definition resource_kind_many (v : value) : resource_kind :=
  match v with VRefs [] => RSkip | VRefs l => resource_kind_refs l | _ => RSkip end.

(** saveDataTypeSingle, lines 364-370, with getDataType, lines 756-766 *)
Definition saveDataTypeSingle (f : feature) (v : value) (s : xml) : option xml :=
  match v with
  | VNil => Some s
  | VData t => Some (addAttribute (f_name f) (escape t) s)
  | _ => None
  end.
(** saveIDRefSingle, lines 512-520 *)
Definition saveIDRefSingle (f : feature) (v : value) (s : xml) : xml :=
  match v with
  | VRef t => if str_eqb (t_idref t) [] then s else addAttribute (f_name f) (t_idref t) s
  | _ => s
  end.
(** saveIDRefMany, lines 522-548: [None] also when the loop meets nil, on which it does not end *)
Fixpoint idrefs (l : list (option target)) (failure : bool) (buffer : str) : option (bool * str) :=
  match l with
  | [] => None
  | None :: _ => None
  | Some t :: l' =>
      let last := match l' with [] => true | _ => false end in
      if str_eqb (t_idref t) [] then (if last then Some (true, buffer) else idrefs l' true buffer)
      else if last then Some (failure, buffer ++ t_idref t) else idrefs l' failure (buffer ++ t_idref t ++ [32])
  end.
Definition saveIDRefMany (f : feature) (v : value) (s : xml) : option xml :=
  match v with
  | VRefs l => let? r := idrefs l false [] in
               let '(failure, b) := r in
               Some (if negb failure && (zlen b >? 0) then addAttribute (f_name f) b s else s)
  | _ => None
  end.

(** the first loop of saveFeatures, lines 234-320: [true] when the feature is to be saved as elements *)
Definition save_attribute (f : feature) (set : bool) (v : value) (s : xml) : option (xml * bool) :=
  match getSaveFeatureKind f with
  | Transient => Some (s, false)
  | k =>
      if negb set then Some (s, false)
      else match k with
           | DataTypeSingle => let? s' := saveDataTypeSingle f v s in Some (s', false)
           | DataTypeSingleNillable => if isNil v then Some (s, true) else let? s' := saveDataTypeSingle f v s in Some (s', false)
           | ContainManyUnsettable | DataTypeMany =>
               let? e := isEmpty v in
               if e then Some (addAttribute (f_name f) [] s, false) else Some (s, true)
           | ContainSingleUnsettable | ContainSingle | ContainMany => Some (s, true)
           | HrefSingleUnsettable =>
               if isNil v then Some (s, true)
               else match resource_kind_single v with
                    | RCross => Some (s, true) | RSame => Some (saveIDRefSingle f v s, false) | RSkip => Some (s, false) end
           | HrefSingle =>
               match resource_kind_single v with
               | RCross => Some (s, true) | RSame => Some (saveIDRefSingle f v s, false) | RSkip => Some (s, false) end
           | HrefManyUnsettable =>
               let? e := isEmpty v in
               if e then Some (addAttribute (f_name f) [] s, false)
               else match resource_kind_many v with
                    | RCross => Some (s, true) | RSame => let? s' := saveIDRefMany f v s in Some (s', false) | RSkip => Some (s, false) end
           | HrefMany =>
               match resource_kind_many v with
               | RCross => Some (s, true) | RSame => let? s' := saveIDRefMany f v s in Some (s', false) | RSkip => Some (s, false) end
           | Transient => Some (s, false)
           end
  end.
Fixpoint save_attributes (l : list slot) (s : xml) : option (xml * list bool) :=
  match l with
  | [] => Some (s, [])
  | mkS f set v :: l' =>
      let? r := save_attribute f set v s in
      let '(s', b) := r in
      let? r' := save_attributes l' s' in
      Some (fst r', b :: snd r')
  end.

(** saveElementID, lines 220-226 *)
Definition saveElementID (attr : str) (t : target) (s : xml) : xml :=
  match t_id t with Some id => if zlen attr >? 0 then addAttribute attr id s else s | None => s end.
(** saveTypeAttribute, lines 475-479 *)
Definition saveTypeAttribute (c : str) (s : xml) : xml := addAttribute (lit "xsi:type") c s.

(** saveHRef, lines 498-510 *)
Definition saveHRef (f : feature) (t : target) (s : xml) : option xml :=
  if str_eqb (t_href t) [] then Some s
  else
    let? s := startElement (f_name f) s in
    let s := if negb (str_eqb (f_type f) (t_class t)) && f_abstract f then saveTypeAttribute (t_class t) s else s in
    endEmptyElement (addAttribute (lit "href") (t_href t) s).
Fixpoint saveHRefs (f : feature) (l : list (option target)) (s : xml) : option xml :=
  match l with
  | [] => Some s
  | None :: l' => saveHRefs f l' s
  | Some t :: l' => let? s' := saveHRef f t s in saveHRefs f l' s'
  end.

(** saveDataTypeMany, lines 372-391: the content is not escaped *)
Fixpoint saveDataTypeMany (f : feature) (l : list (option str)) (s : xml) : option xml :=
  match l with
  | [] => Some s
  | None :: l' =>
      let? s := startElement (f_name f) s in
      let? s := endEmptyElement (addAttribute (lit "xsi:nil") (lit "true") s) in
      saveDataTypeMany f l' s
  | Some t :: l' => let? s := addContent (f_name f) t s in saveDataTypeMany f l' s
  end.

(** saveFeatures, lines 228-362, with saveContainedSingle, saveContainedMany, saveEObjectInternal and saveEObject,
    lines 439-473, and saveHRefSingle, saveHRefMany, lines 481-496; [attr] is the id attribute name.
    The second loop goes over all features again and skips those which the first loop has not selected. *)
Fixpoint saveFeatures (attr : str) (o : obj) (s : xml) {struct o} : option xml :=
  match o with
  | mkO _ slots =>
      let? r := save_attributes slots s in
      let '(s, selected) := r in
      if negb (existsb (fun b => b) selected) then endEmptyElement s
      else
        let saveEObjectInternal (o' : obj) (f : feature) (s : xml) (rest : xml -> option xml) : option xml :=
          let t := o_target o' in
          if t_direct t || t_proxy t then saveHRef f t s
          else
            let? s := startElement (f_name f) s in
            let s := if negb (str_eqb (f_type f) (t_class t)) && negb (f_any f) then saveTypeAttribute (t_class t) s else s in
            rest (saveElementID attr t s) in
        let? s :=
          (fix elements (l : list slot) (sel : list bool) (s : xml) {struct l} : option xml :=
             match l with
             | [] => Some s
             | mkS f _ v :: l' =>
                 match sel with
                 | [] => Some s
                 | false :: sel' => elements l' sel' s
                 | true :: sel' =>
                     let? s :=
                       match getSaveFeatureKind f, v with
                       | DataTypeSingleNillable, _ => addNil (f_name f) s
                       | DataTypeMany, VDatas texts => saveDataTypeMany f texts s
                       | ContainSingleUnsettable, VNil => addNil (f_name f) s
                       | ContainSingleUnsettable, VChild o' | ContainSingle, VChild o' => saveEObjectInternal o' f s (saveFeatures attr o')
                       | ContainSingleUnsettable, _ | ContainSingle, _ => Some s
                       | ContainManyUnsettable, VChildren os | ContainMany, VChildren os =>
                           (fix children (os : list (option obj)) (s : xml) {struct os} : option xml :=
                              match os with
                              | [] => Some s
                              | None :: os' => children os' s
                              | Some o' :: os' => let? s := saveEObjectInternal o' f s (saveFeatures attr o') in children os' s
                              end) os s
                       | HrefSingleUnsettable, VNil => addNil (f_name f) s
                       | HrefSingleUnsettable, VRef t | HrefSingle, VRef t => saveHRef f t s
                       | HrefSingleUnsettable, _ | HrefSingle, _ => Some s
                       | HrefManyUnsettable, VRefs ts | HrefMany, VRefs ts => saveHRefs f ts s
                       | _, _ => None
                       end in
                     elements l' sel' s
                 end
             end) slots selected s in
        endElement s
  end.

(** saveTopObject, lines 161-177: [None] when the object is the document root of its package *)
Definition saveTopObject (attr : str) (name : option str) (o : obj) (s : xml) : option xml :=
  match name with
  | Some n => let? s := startElement n s in saveFeatures attr o (saveElementID attr (o_target o) s)
  | None => let? s := startElement [] s in saveFeatures attr o s
  end.

(** saveHeader, lines 156-159 *)
Definition saveHeader (version encoding : str) (s : xml) : xml :=
  addLine (add (lit "<?xml version=""" ++ version ++ lit """ encoding=""" ++ encoding ++ lit """?>") s).

(** saveNamespaces, lines 205-218 and xmiencoder.go lines 32-36: the attributes in the order in which they are written *)
Fixpoint saveNamespaces (l : list (str * str)) (s : xml) : xml :=
  match l with [] => s | (n, v) :: l' => saveNamespaces l' (addAttribute n v s) end.

(** encodeTopObject, lines 132-154 *)
Definition encodeTopObject (version encoding attr : str) (name : option str) (namespaces : list (str * str)) (o : obj) : option str :=
  let s := saveHeader version encoding newXml in
  let? s := saveTopObject attr name o s in
  Some (text_of (saveNamespaces namespaces (resetToFirstElementMark s))).
