(** Saving and loading XML documents: properties C101 to C107. *)
From Coq Require Import String.
From Verif Require Import Base Chars StrconvModel FragmentModel FragmentSpec XmlTokenModel XmlInModel XmlInSpec XmlInHeapSpec XmlTree XmlInResolve XmlInHeapProofs XmlInCut XmlInExample XmlInExampleProofs.
Open Scope Z_scope.

(** ** C101 A saved document is loaded as it was *)
Theorem C101_xml_round_trip : forall V (M : meta V) op W version encoding d,
  op_deferred op = true -> id_attribute_ok op -> spaces_ok op W -> valid M op W (linkable M op W d) d ->
  (forall c f g, In f (m_features M c) -> In g (m_features M c) -> m_name M f = m_name M g -> f = g) -> Z.of_nat (dsize d) < 2 ^ 63 ->
  no_question version -> no_question encoding ->
  exists text s, save M op W version encoding d = Some text /\ decode M op text = Ok s /\ holds_document M op W d s.
Proof. intros V M op W. exact (round_trip M op W). Qed.
Print Assumptions C101_xml_round_trip.
Example lib_meets :
  op_deferred (lib_op true) = true /\ id_attribute_ok (lib_op true) /\ spaces_ok (lib_op true) lib_writing /\
  valid library (lib_op true) lib_writing (linkable library (lib_op true) lib_writing lib_doc) lib_doc /\
  (forall c f g, In f (m_features library c) -> In g (m_features library c) -> m_name library f = m_name library g -> f = g) /\
  Z.of_nat (dsize lib_doc) < 2 ^ 63 /\ no_question (lit "1.0") /\ no_question (lit "UTF-8").
Proof.
  split; [reflexivity|]. split; [apply lib_id|]. split; [apply lib_spaces|]. split; [apply lib_valid|]. split; [exact lib_names|]. split; [reflexivity|].
  split; intros c I ->; revert I; apply not_in; reflexivity.
Qed.
Example lib_saved : save library (lib_op true) lib_writing (lit "1.0") (lit "UTF-8") lib_doc = Some lib_text.
Proof. vm_compute. reflexivity. Qed.
Example lib_loaded : let s := loaded (lib_op true) lib_text in
  map (fun a => r_class (heap s a)) (seq 0 (next s)) = [0; 1; 1; 1]%nat /\ r_slot (heap s 0%nat) 1 = SRefs [1; 2]%nat /\ r_slot (heap s 0%nat) 5 = SRef 2 /\
  r_slot (heap s 1%nat) 3 = SRefs [2; 1]%nat /\ r_slot (heap s 1%nat) 2 = SData (lit "x<y") /\ r_slot (heap s 2%nat) 3 = SRefs [3]%nat /\ r_proxy (heap s 3%nat) = Some (lit "other.xml#/").
Proof. vm_compute. repeat split; reflexivity. Qed.

(** ** C102 The same without deferred resolution of references: false, lists of references may change their order *)
Theorem C102_undeferred_round_trip_refuted : exists (op : options) (W : writing) (d : dobj str) text s,
  op_deferred op = false /\ id_attribute_ok op /\ spaces_ok op W /\ valid library op W (linkable library op W d) d /\
  (forall c f g, In f (m_features library c) -> In g (m_features library c) -> m_name library f = m_name library g -> f = g) /\
  save library op W (lit "1.0") (lit "UTF-8") d = Some text /\ decode library op text = Ok s /\
  r_slot (heap (document library op W d) 2%nat) 3 = SRefs [3; 1]%nat /\ r_slot (heap s 2%nat) 3 = SRefs [1; 3]%nat /\ ~ holds_document library op W d s.
Proof. exact undeferred_order. Qed.
Print Assumptions C102_undeferred_round_trip_refuted.

(** ** C103 Elements which the metamodel does not know are reported and skipped: false, what follows is lost *)
Theorem C103_unknown_content_refuted : exists before unknown after s s',
  (forall c f, In f (m_features library c) -> m_name library f <> lit "zap") /\
  unknown = lit "<zap/>" /\ decode library (lib_op true) (before ++ after) = Ok s /\ decode library (lib_op true) (before ++ unknown ++ after) = Ok s' /\
  errors s = [] /\ refs (r_slot (heap s 0%nat) 1) = [1; 2]%nat /\ In (UnknownFeature (lit "zap")) (errors s') /\
  refs (r_slot (heap s' 0%nat) 1) = [1]%nat /\ next s' = 2%nat.
Proof. exact unknown_element. Qed.
Print Assumptions C103_unknown_content_refuted.

(** ** C104 Loading a text does not panic: false *)
Theorem C104_loading_panics_refuted :
  (* a reference to itself, twice *)
  decode library (lib_op true) (in_library "<books next='#//@books.0 #//@books.0'/>") = Panic /\
  (* a path with a feature that does not exist *)
  decode library (lib_op true) (in_library "<books next='#//@zap.0'/>") = Panic /\
  (* a second element which declares a prefix *)
  decode library (lib_op true) (in_library "<books xmlns:a='b'/><books xmlns:c='d'/>") = Panic /\
  (* a reference of the root to another document, with an abstract type *)
  decode library (lib_op true) (q "<lib:Library xmlns:lib='http://lib' item='a.xml#/'/>") = Panic.
Proof. exact loading_panics. Qed.
Print Assumptions C104_loading_panics_refuted.

(** ** C105 What is in the text is in the objects or among the errors: false *)
Theorem C105_values_lost_refuted : exists s1 s2 s3,
  (* a list of values in an attribute is ignored *)
  decode library (lib_op true) (in_library "<books tags='x y'/>") = Ok s1 /\ errors s1 = [] /\ r_slot (heap s1 1%nat) 4 = Unset /\
  (* nil becomes the empty text *)
  decode library (lib_op true) (in_library "<books><title xsi:nil='true'/></books>") = Ok s2 /\ errors s2 = [] /\ r_slot (heap s2 1%nat) 2 = SData [] /\
  (* an empty list of references becomes a reference to the root *)
  decode library (lib_op true) (in_library "<books next=''/>") = Ok s3 /\ errors s3 = [] /\ r_slot (heap s3 1%nat) 3 = SRefs [0%nat].
Proof. exact values_lost. Qed.
Print Assumptions C105_values_lost_refuted.

(** ** C106 Loaded objects are well formed, whatever the text *)
Theorem C106_loaded_well_formed : forall V (M : meta V) op text s, decode M op text = Ok s -> well_formed M s.
Proof. intros V M op. exact (decode_wf M op). Qed.
Print Assumptions C106_loaded_well_formed.
(** a text with an unknown feature, a reference to nothing, and a second root *)
Example messy_loaded : let t := in_library "<books title='1' next='#//@books.0'><zap/></books><lib:Library name='2'/><zip/>" in
  decode library (lib_op true) t = Ok (loaded (lib_op true) t) /\ errors (loaded (lib_op true) t) <> [] /\ rcontents (loaded (lib_op true) t) = [0; 2]%nat /\
  r_parent (heap (loaded (lib_op true) t) 1%nat) = Some (0, 1)%nat.
Proof. intros t. split; [apply loaded_is; vm_compute; reflexivity|]. split; [vm_compute; discriminate|]. split; vm_compute; reflexivity. Qed.

(** ** C107 A saved document which is cut off is reported, or empty, or complete *)
Theorem C107_cut_document : forall V (M : meta V) op W version encoding d,
  op_deferred op = true -> id_attribute_ok op -> spaces_ok op W -> valid M op W (linkable M op W d) d ->
  (forall c f g, In f (m_features M c) -> In g (m_features M c) -> m_name M f = m_name M g -> f = g) -> Z.of_nat (dsize d) < 2 ^ 63 ->
  no_question version -> no_question encoding ->
  exists text, save M op W version encoding d = Some text /\
    forall p r, text = p ++ r -> exists s, decode M op p = Ok s /\ (In Syntax (errors s) \/ nothing s \/ holds_document M op W d s).
Proof. intros V M op W. exact (cut_off M op W). Qed.
Print Assumptions C107_cut_document.
(** for [lib_doc], which meets the conditions by [lib_meets]: without the last 17 characters, and the first 39 only *)
Example lib_cut : errors (loaded (lib_op true) (firstn (length lib_text - 17) lib_text)) = [Syntax] /\ rcontents (loaded (lib_op true) (firstn (length lib_text - 17) lib_text)) = [0%nat] /\
  nothing (loaded (lib_op true) (firstn 39 lib_text)).
Proof. vm_compute. repeat split; reflexivity. Qed.
