(** Values in SQL columns: C32, C86, C87, C88. *)
From Coq Require Import String.
From Verif Require Import Base Chars StrconvModel TimeModel FloatModel LiteralModel LiteralSpec LiteralTheorems SqlSchemaModel SqlValueModel SqlValueSpec SqlValueProofs.
Local Open Scope string_scope.
Local Open Scope list_scope.
Local Open Scope Z_scope.

(** ** C32: every value of the Go type of a kind is read back *)
Definition C32_statement : Prop :=
  forall literals create convert en default sprint convert_sql k ty v,
    kind_type k = Some ty -> of_go_type ty v ->
    column_round_trip literals create convert en default sprint convert_sql k v.

Local Notation trip k v := (column_round_trip (fun _ => None) (fun _ => None) (fun _ => None) (O, []) VNil (fun _ => []) (fun _ x => x) k v).
Lemma no_rows : consistent (fun _ => None) [] [].
Proof. split; [intros ? ? ? []|constructor]. Qed.
Lemma refute k v x w : encodeFeatureValue (fun _ => None) (fun _ => None) (O, []) k v [] [] = Done (x, [], []) ->
  decodeFeatureValue (fun _ => None) (fun _ => None) VNil k [] [] (decodeAny (store (fun _ x => x) (column_type k) (bind_arg (fun _ => []) x))) = w ->
  w <> Done v -> ~ trip k v.
Proof.
  intros E1 E2 Hw H. destruct (H [] [] no_rows) as (x' & m' & t' & E & C & _ & D).
  rewrite E1 in E. injection E as <- <- <-. rewrite (D [] [] no_rows (ex_intro _ [] eq_refl)) in E2. now apply Hw.
Qed.
(** a half second, not a number, the negative zero, the nil slice, the offset of Amsterdam before 1937 *)
Theorem C32_refuted :
  ~ C32_statement /\
  ~ trip sfkDate (VTime (mkTime 0 500000000 0)) /\
  ~ trip sfkFloat64 (VFloat64 SpecFloat.S754_nan) /\
  ~ trip sfkFloat32 (VFloat32 (SpecFloat.S754_zero true)) /\
  ~ trip sfkByteArray (VBytes None) /\
  ~ trip sfkDate (VTime (mkTime 0 0 1172)).
Proof.
  assert (D : ~ trip sfkDate (VTime (mkTime 0 500000000 0))).
  { eapply refute; [vm_compute; reflexivity|vm_compute; reflexivity|discriminate]. }
  split; [|split; [exact D|split; [|split; [|split]]]].
  - intro H. apply D. apply (H _ _ _ _ _ _ _ sfkDate "*time.Time" (VTime (mkTime 0 500000000 0))); [reflexivity|split; [reflexivity|cbn; lia]].
  - eapply refute; [vm_compute; reflexivity|vm_compute; reflexivity|discriminate].
  - eapply refute; [vm_compute; reflexivity|vm_compute; reflexivity|discriminate].
  - eapply refute; [vm_compute; reflexivity|vm_compute; reflexivity|discriminate].
  - eapply refute; [vm_compute; reflexivity|vm_compute; reflexivity|discriminate].
Qed.
Print Assumptions C32_refuted.

(** the kind is chosen by the instance type name, the values by the annotation: a data type
    java.lang.Long annotated int gives back an int64 *)
Theorem C32_refuted_annotation :
  let d := mkD None (lit "java.lang.Long") (lit "int") in
  createFromString (fun _ => SpecFloat.S754_nan) (fun _ => SpecFloat.S754_nan) d (lit "5") = Some (VInt 5) /\
  data_kind (dinstance d) = sfkInt64 /\
  decodeFeatureValue (fun _ => None) (fun _ => None) VNil sfkInt64 [] [] (decodeAny (store (fun _ x => x) (column_type sfkInt64) (bind_arg (fun _ => []) (VInt 5)))) = Done (VInt64 5).
Proof. vm_compute. repeat split. Qed.
Print Assumptions C32_refuted_annotation.

(** what remains: dates of whole seconds and minutes of offset, numbers other than -0.0 and NaN, slices that
    are not nil; data whose literals are read back; enumerations whose literal is read back or has the
    value as its instance *)
Theorem C32_values_partial : forall literals create convert en default sprint convert_sql k v,
    storable literals create convert en k v ->
    column_round_trip literals create convert en default sprint convert_sql k v.
Proof. exact storable_round_trip. Qed.
Print Assumptions C32_values_partial.

(** ** C86: the identifiers of enumeration literals *)
(** encoding and decoding keep the identifier manager and the enums table consistent *)
Theorem C86_encode_keeps_enums : forall literals convert en k v m t x m' t',
    consistent literals m t -> encodeFeatureValue literals convert en k v m t = Done (x, m', t') ->
    consistent literals m' t' /\ extends t t'.
Proof. intros l c. exact (fun en => encode_consistent l (fun _ => None) c en VNil (fun _ => []) (fun _ x => x)). Qed.
Print Assumptions C86_encode_keeps_enums.
Theorem C86_decode_keeps_enums : forall literals m t n l m',
    consistent literals m t -> decodeEnumLiteral literals m t n = Done (l, m') -> consistent literals m' t.
Proof. exact decode_literal_consistent. Qed.
Print Assumptions C86_decode_keeps_enums.
(** a row is decoded as the first literal with its text, whether the identifier is known or not *)
Theorem C86_row_is_literal : forall literals m t n e s ls,
    consistent literals m t -> In (mkR n e s) t -> literals e = Some ls -> forall i, position ls s = Some i ->
    exists l m', decodeEnumLiteral literals m t n = Done (l, m') /\ nth_error ls i = Some l /\ consistent literals m' t.
Proof. exact decode_literal. Qed.
Print Assumptions C86_row_is_literal.

(** ** C87: NULL *)
Theorem C87_null : forall literals create convert en default sprint convert_sql k m t,
    encodeFeatureValue literals convert en k VNil m t = Done (VNil, m, t) /\
    decodeFeatureValue literals create default k m t (decodeAny (store convert_sql (column_type k) (bind_arg sprint VNil))) = Done (zero_of default k).
Proof. exact null_decodes. Qed.
Print Assumptions C87_null.

(** ** C88: references *)
Theorem C88_references : forall id uri, signed 64 id ->
  (id <> 0 -> decodeReference (encodeReference id uri) = Local id) /\
  (id = 0 -> uri <> [] -> snd (parse_int 64 uri) = false -> decodeReference (encodeReference id uri) = Proxy uri).
Proof. exact reference_round_trip. Qed.
Print Assumptions C88_references.
(** the resource 12 of the same directory is read as the object 12 of this resource *)
Theorem C88_refuted_numeric_uri : decodeReference (encodeReference 0 (lit "12")) = Local 12 /\ decodeReference (encodeReference 0 []) = NoTarget.
Proof. vm_compute. split; reflexivity. Qed.
Print Assumptions C88_refuted_numeric_uri.

(** a leap day in Kathmandu, the largest float32, an enumeration written twice with its table *)
Example ex_kathmandu : trip sfkDate (VTime (mkTime 951827696 0 20700)).
Proof.
  apply C32_values_partial. split; [discriminate|]. exists "*time.Time".
  split; [reflexivity|split; [split; [reflexivity|cbn; lia]|]]. split; [reflexivity|split; [reflexivity|split; vm_compute; [discriminate|reflexivity]]].
Qed.
Example ex_largest : trip sfkFloat32 (VFloat32 (SpecFloat.S754_finite false 16777215 104)).
Proof.
  apply C32_values_partial. split; [discriminate|]. exists "float32".
  split; [reflexivity|split; [split; vm_compute; reflexivity|split; discriminate]].
Qed.
Definition color (e : enum) : option (list literal) :=
  if same_enum e (O, lit "Color") then Some [mkL (lit "red") [] 0 VNil; mkL (lit "green") (lit "GREEN") 1 VNil] else None.
Definition color_type : datatype := mkD (Some [mkL (lit "red") [] 0 VNil; mkL (lit "green") (lit "GREEN") 1 VNil]) [] [].
Local Notation color_create := (createFromString (fun _ => SpecFloat.S754_nan) (fun _ => SpecFloat.S754_nan) color_type).
Local Notation color_convert := (convertToString (fun _ => []) (fun _ => []) color_type).
Example ex_color : storable color color_create color_convert (O, lit "Color") sfkEnum (VInt 1).
Proof.
  split; [discriminate|]. exists [mkL (lit "red") [] 0 VNil; mkL (lit "green") (lit "GREEN") 1 VNil], (lit "GREEN"), (mkL (lit "green") (lit "GREEN") 1 VNil).
  split; [reflexivity|split; [reflexivity|split; [reflexivity|right; split; reflexivity]]].
Qed.
Example ex_color_rows :
  encodeFeatureValue color color_convert (O, lit "Color") sfkEnum (VInt 1) [] [] =
    Done (VInt64 1, [((O, lit "Color"), 1%nat, 1)], [mkR 1 (O, lit "Color") (lit "GREEN")]) /\
  encodeFeatureValue color color_convert (O, lit "Color") sfkEnum (VInt 0) [((O, lit "Color"), 1%nat, 1)] [mkR 1 (O, lit "Color") (lit "GREEN")] =
    Done (VInt64 2, [((O, lit "Color"), 1%nat, 1); ((O, lit "Color"), 0%nat, 2)], [mkR 1 (O, lit "Color") (lit "GREEN"); mkR 2 (O, lit "Color") (lit "red")]) /\
  decodeFeatureValue color color_create VNil sfkEnum [] [mkR 1 (O, lit "Color") (lit "GREEN"); mkR 2 (O, lit "Color") (lit "red")] (VInt64 1) = Done (VInt 1).
Proof. vm_compute. repeat split. Qed.
(** an attribute of Ecore that has no column type of its own *)
Example ex_data : storable (fun _ => None) (ecore_create (fun _ => SpecFloat.S754_nan) (fun _ => SpecFloat.S754_nan) EChar)
  (ecore_convert (fun _ => []) (fun _ => []) EChar) (O, []) sfkDataList (VByte 65).
Proof. split; [discriminate|]. exists [65]. split; reflexivity. Qed.
