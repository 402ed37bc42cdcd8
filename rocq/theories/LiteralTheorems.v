(** Literals of data types: C36, C84, C85. *)
From Coq Require Import String.
From Verif Require Import Base Chars StrconvModel TimeModel FloatModel LiteralModel LiteralSpec LiteralProofs.
Local Open Scope string_scope.
Local Open Scope list_scope.
Local Open Scope Z_scope.

(** ** C36: the factory of a package reads back what it writes *)
Definition C36_statement : Prop :=
  forall format64 format32 parse64 parse32 d v,
    (exists name t, denum d = None /\ getInstanceTypeName d = lit name /\ In (name, t) go_types /\
       In t ["int"; "int64"; "int32"; "int16"; "int8"; "uint64"; "bool"; "string"] /\ of_go_type t v) \/
    (exists ls n, denum d = Some ls /\ v = VInt n /\ In n (map lvalue ls)) ->
    round_trips (convertToString format64 format32 d) (createFromString parse64 parse32 d) v.

(** two literals with the same text: the second is read back as the first *)
Definition two_literals : datatype :=
  mkD (Some [mkL (lit "A") [] 0 VNil; mkL (lit "B") (lit "A") 1 VNil]) [] [].
Theorem C36_refuted : ~ C36_statement.
Proof.
  intro H. destruct (H (fun _ => []) (fun _ => []) (fun _ => SpecFloat.S754_nan) (fun _ => SpecFloat.S754_nan) two_literals (VInt 1)) as (s & E1 & E2).
  - right. exists [mkL (lit "A") [] 0 VNil; mkL (lit "B") (lit "A") 1 VNil], 1. split; [reflexivity|split; [reflexivity|right; left; reflexivity]].
  - vm_compute in E1. injection E1 as <-. vm_compute in E2. discriminate E2.
Qed.
Print Assumptions C36_refuted.

Theorem C36_literals_partial : forall format64 format32 parse64 parse32 d v,
    (exists name t, denum d = None /\ getInstanceTypeName d = lit name /\ In (name, t) go_types /\
       In t ["int"; "int64"; "int32"; "int16"; "int8"; "uint64"; "bool"; "string"] /\ of_go_type t v) \/
    (exists ls n, denum d = Some ls /\ v = VInt n /\ In n (map lvalue ls) /\
       forall l l', In l ls -> In l' ls -> getLiteral l = getLiteral l' -> lvalue l = lvalue l') ->
    round_trips (convertToString format64 format32 d) (createFromString parse64 parse32 d) v.
Proof.
  intros f64 f32 p64 p32 d v [(name & t & Hd & Hn & Hin & Ht & Hv) | (ls & n & Hd & -> & Hn & Hu)].
  - apply (factory_round_trip f64 f32 p64 p32 d name t v Hd Hn Hin Hv); intros ->; cbn [In] in Ht; intuition discriminate.
  - exact (enum_round_trip f64 f32 p64 p32 d ls n Hd Hn Hu).
Qed.
Print Assumptions C36_literals_partial.

(** the smallest int64, a word of a dynamic data type with a Java instance type, an enumeration *)
Example ex_min_int64 :
  round_trips (convertToString (fun _ => []) (fun _ => []) (mkD None (lit "java.lang.Long") []))
              (createFromString (fun _ => SpecFloat.S754_nan) (fun _ => SpecFloat.S754_nan) (mkD None (lit "java.lang.Long") [])) (VInt64 (-9223372036854775808)).
Proof.
  apply C36_literals_partial. left. exists "java.lang.Long", "int64".
  split; [reflexivity|split; [reflexivity|split; [cbn; tauto|split; [cbn; tauto|]]]].
  split; [reflexivity|unfold signed; lia].
Qed.
Example ex_colors :
  let d := mkD (Some [mkL (lit "red") [] 0 VNil; mkL (lit "green") (lit "GREEN") 1 VNil; mkL (lit "lime") [] 1 VNil]) [] [] in
  convertToString (fun _ => []) (fun _ => []) d (VInt 1) = Some (lit "GREEN") /\
  createFromString (fun _ => SpecFloat.S754_nan) (fun _ => SpecFloat.S754_nan) d (lit "GREEN") = Some (VInt 1) /\
  createFromString (fun _ => SpecFloat.S754_nan) (fun _ => SpecFloat.S754_nan) d (lit "lime") = Some (VInt 1).
Proof. vm_compute. repeat split. Qed.
(** the annotation wins over the instance type name *)
Example ex_annotation :
  createFromString (fun _ => SpecFloat.S754_nan) (fun _ => SpecFloat.S754_nan) (mkD None (lit "java.lang.Long") (lit "int")) (lit "-17") = Some (VInt (-17)).
Proof. vm_compute. reflexivity. Qed.

(** ** C84: all data types *)
(** the other Go types, and the data types of Ecore *)
Theorem C84_factory_floats : forall format64 format32 parse64 parse32 d name t v,
    denum d = None -> getInstanceTypeName d = lit name -> In (name, t) go_types -> of_go_type t v -> t <> "[]byte" ->
    exact_format is_float64 format64 parse64 -> exact_format is_float32 format32 parse32 ->
    round_trips (convertToString format64 format32 d) (createFromString parse64 parse32 d) v.
Proof.
  intros f64 f32 p64 p32 d name t v Hd Hn Hin Hv Hb H64 H32.
  exact (factory_round_trip f64 f32 p64 p32 d name t v Hd Hn Hin Hv Hb (fun _ => H64) (fun _ => H32)).
Qed.
Print Assumptions C84_factory_floats.
Theorem C84_ecore_data_types : forall format64 format32 parse64 parse32 e v,
    of_go_type (ecore_go_type e) v -> v <> VBytes None -> (forall t, v = VTime t -> milli_time t) ->
    exact_format is_float64 format64 parse64 -> exact_format is_float32 format32 parse32 ->
    round_trips (ecore_convert format64 format32 e) (ecore_create parse64 parse32 e) v.
Proof. exact ecore_round_trip. Qed.
Print Assumptions C84_ecore_data_types.

(** what the two hypotheses on values exclude: an hour of offset is lost, the instant changes; microseconds
    are lost; a nil slice is read back as an empty one; there is no literal of a slice of bytes in a
    package other than Ecore *)
Theorem C84_refuted_other_values : forall format64 format32 parse64 parse32,
  ~ round_trips (ecore_convert format64 format32 EDate) (ecore_create parse64 parse32 EDate) (VTime (mkTime 0 0 3600)) /\
  ecore_create parse64 parse32 EDate (format_milli (mkTime 0 0 3600)) = Some (VTime (mkTime 3600 0 0)) /\
  ~ round_trips (ecore_convert format64 format32 EDate) (ecore_create parse64 parse32 EDate) (VTime (mkTime 0 123456000 0)) /\
  ~ round_trips (ecore_convert format64 format32 EByteArray) (ecore_create parse64 parse32 EByteArray) (VBytes None) /\
  (forall ty b, denum ty = None -> getInstanceTypeName ty = lit "[]byte" -> convertToString format64 format32 ty (VBytes b) = None).
Proof.
  intros f64 f32 p64 p32. split; [|split; [|split; [|split]]].
  - intros (s & E1 & E2). injection E1 as <-. vm_compute in E2. discriminate E2.
  - vm_compute. reflexivity.
  - intros (s & E1 & E2). injection E1 as <-. vm_compute in E2. discriminate E2.
  - intros (s & E1 & E2). injection E1 as <-. discriminate E2.
  - intros ty b Hd Hn. unfold convertToString. rewrite Hd, Hn. reflexivity.
Qed.
Print Assumptions C84_refuted_other_values.

Example ex_date : milli_time (mkTime 951827696 789000000 0) /\
  ecore_convert (fun _ => []) (fun _ => []) EDate (VTime (mkTime 951827696 789000000 0)) = Some (lit "2000-02-29T12:34:56.789Z") /\
  ecore_create (fun _ => SpecFloat.S754_nan) (fun _ => SpecFloat.S754_nan) EDate (lit "2000-02-29T12:34:56.789Z") = Some (VTime (mkTime 951827696 789000000 0)).
Proof. split; [split; [reflexivity|split; [reflexivity|split; vm_compute; [discriminate|reflexivity]]]|vm_compute; split; reflexivity]. Qed.
Example ex_byte : of_go_type (ecore_go_type EByte) (VByte 200) /\
  ecore_convert (fun _ => []) (fun _ => []) EByte (VByte 200) = Some [200].
Proof. cbn. repeat split; lia. Qed.

(** ** C85: any text is read as a value of the type *)
Theorem C85_factory : forall parse64 parse32 d name t s,
    denum d = None -> getInstanceTypeName d = lit name -> In (name, t) go_types ->
    sized is_float64 parse64 -> sized is_float32 parse32 ->
    exists v, createFromString parse64 parse32 d s = Some v /\ of_go_type t v.
Proof. exact create_typed. Qed.
Print Assumptions C85_factory.
Theorem C85_ecore : forall parse64 parse32 e s,
    ecore_go_type e <> "" -> ecore_go_type e <> "byte" \/ s <> [] -> (forall c, In c s -> 0 <= c < 256) ->
    sized is_float64 parse64 -> sized is_float32 parse32 ->
    exists v, ecore_create parse64 parse32 e s = Some v /\ of_go_type (ecore_go_type e) v.
Proof. exact ecore_typed. Qed.
Print Assumptions C85_ecore.
(** the byte of an empty literal is a string, and converting it back panics *)
Theorem C85_refuted_empty_byte : forall format64 format32 parse64 parse32,
    exists v, ecore_create parse64 parse32 EByte [] = Some v /\ ~ of_go_type "byte" v /\
              ecore_convert format64 format32 EByte v = None.
Proof. intros. exists (VString golang_nul). split; [reflexivity|split; [discriminate|reflexivity]]. Qed.
Print Assumptions C85_refuted_empty_byte.
Example ex_garbage :
  createFromString (fun _ => SpecFloat.S754_nan) (fun _ => SpecFloat.S754_nan) (mkD None (lit "int16") []) (lit "99999") = Some (VInt16 32767) /\
  createFromString (fun _ => SpecFloat.S754_nan) (fun _ => SpecFloat.S754_nan) (mkD None (lit "int8") []) (lit "-200") = Some (VInt8 (-128)) /\
  createFromString (fun _ => SpecFloat.S754_nan) (fun _ => SpecFloat.S754_nan) (mkD None (lit "uint64") []) (lit "12x") = Some (VUint64 0).
Proof. vm_compute. repeat split. Qed.
