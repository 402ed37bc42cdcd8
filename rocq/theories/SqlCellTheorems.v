(** Attributes and containers in a SQL store: C117 to C121. *)
From Coq Require Import String.
From Verif Require Import Base Chars StrconvModel TimeModel FloatModel LiteralModel LiteralSpec SqlSchemaModel SqlValueModel SqlValueSpec SqlCellModel SqlCellSpec SqlCellProofs.
Local Open Scope string_scope.
Local Open Scope list_scope.
Local Open Scope Z_scope.

(** Base (0) has size (0, an int), visible (1, a bool whose default is true), color (2, an enumeration whose
    default is red) and tall (3, an int whose default is 0); Derived (1) extends Base and has count (4).  Left (2) has the list a (5), Right
    (3) the list b (6), Both (4) extends Left and Right. *)
Definition colors : list literal := [mkL (lit "red") [] 1 VNil; mkL (lit "green") [] 2 VNil].
Definition color_type : datatype := mkD (Some colors) [] [].
Definition attribute0 (k : sqlkind) (v : gval) : attr := mkA k (O, []) v (fun _ => None) (fun _ => None).
Definition ex : meta := mkMeta
  (fun f => match f with
            | 1%nat => attribute0 sfkBool (VBool true)
            | 2%nat => mkA sfkEnum (O, lit "Color") (VInt 1)
                         (createFromString (fun _ => SpecFloat.S754_nan) (fun _ => SpecFloat.S754_nan) color_type)
                         (convertToString (fun _ => []) (fun _ => []) color_type)
            | _ => attribute0 sfkInt (VInt 0)
            end)
  (fun c => nth c [[0; 1; 2; 3]; [4]; [5]; [6]; []]%nat [])
  (fun c => nth c [[0]; [1; 0]; [2]; [3]; [4; 2; 3]]%nat [c])
  (fun c => nth c [[0; 1; 2; 3]; [0; 1; 2; 3; 4]; [5]; [6]; [5; 6]]%nat [])
  (fun _ => O)
  (fun f => nth f [0; 0; 0; 0; 1; 2; 3]%nat O)
  (fun e => if same_enum e (O, lit "Color") then Some colors else None).
Lemma ex_proper : proper ex.
Proof. split; [|reflexivity]. intro c. do 5 (destruct c as [|c]; [cbn; auto|]). destruct c; left; reflexivity. Qed.
(** the objects 0..4 are of the classes 0..4 *)
Definition ex_class (o : nat) : nat := o.
Local Notation run := (performAll ex ex_class (fun _ => []) (fun _ x => x) fresh).
Local Notation get_ := (get ex ex_class).
Local Notation isSet_ := (isSet ex ex_class).

(** ** C117: single-valued attributes are variables *)
Definition C117_statement : Prop :=
  forall M class_of sprint convert_sql ks, proper M ->
  (forall k, In k ks -> match k with
     | Set_ o f v _ => In f (flat_map (own M) (hierarchy M (class_of o))) /\ holdable M f v
     | UnSet_ o f => In f (flat_map (own M) (hierarchy M (class_of o))) /\ holdable M f (adefault (attribute M f))
     | SetContainer_ _ _ _ => True end) ->
  exists d, performAll M class_of sprint convert_sql fresh ks = Done d /\
  forall o f, In f (flat_map (own M) (hierarchy M (class_of o))) -> touched ks o ->
    let v := match last_value M ks o f None with Some v => v | None => adefault (attribute M f) end in
    get M class_of d o f = Done (Value v) /\
    exists b, isSet M class_of d o f = Done b /\ (b = true <-> v <> adefault (attribute M f)).

(** an inherited attribute is never stored, and is read as a Go error *)
Theorem C117_inherited_refuted :
  ~ C117_statement /\
  exists d, run [Set_ 1 0 (VInt 5) false; Set_ 1 4 (VInt 7) false] = Done d /\
    get_ d 1 0 = Done ErrorValue /\ get_ d 1 4 = Done (Value (VInt 7)).
Proof.
  assert (X : exists d, run [Set_ 1 0 (VInt 5) false; Set_ 1 4 (VInt 7) false] = Done d /\
    get_ d 1 0 = Done ErrorValue /\ get_ d 1 4 = Done (Value (VInt 7))).
  { eexists. split; [reflexivity|]. vm_compute. split; reflexivity. }
  split; [|exact X]. intro H. destruct X as (d & E & G & _).
  destruct (H ex ex_class (fun _ => []) (fun _ x => x) [Set_ 1 0 (VInt 5) false; Set_ 1 4 (VInt 7) false] ex_proper) as (d' & E' & Hg).
  - intros k [<-|[<-|[]]]; (split; [cbn; tauto|]); (split; [discriminate|]); exists "int"; repeat split; vm_compute; discriminate.
  - rewrite E in E'. injection E' as <-. destruct (Hg 1%nat 0%nat) as [A _]; [cbn; tauto|eexists; split; [left; reflexivity|reflexivity]|].
    rewrite G in A. discriminate.
Qed.
Print Assumptions C117_inherited_refuted.

(** an attribute that was never set is read as false although its default value is true, as soon as another
    one is set *)
Theorem C117_never_set_refuted :
  exists d, run [Set_ 0 0 (VInt 5) false] = Done d /\
    adefault (attribute ex 1) = VBool true /\ get_ d 0 1 = Done (Value (VBool false)).
Proof. eexists. split; [reflexivity|]. vm_compute. split; reflexivity. Qed.
Print Assumptions C117_never_set_refuted.

(** UnSet stores the number of the default literal, which is taken for the row of another literal: the color
    stays green.  Without such a row, the attribute is read as nil and Set with a result does nothing more *)
Theorem C117_unset_refuted :
  (exists d, run [Set_ 0 2 (VInt 2) false; UnSet_ 0 2] = Done d /\
    adefault (attribute ex 2) = VInt 1 /\ get_ d 0 2 = Done (Value (VInt 2))) /\
  (exists d, run [UnSet_ 0 2; Set_ 0 2 (VInt 2) true] = Done d /\ get_ d 0 2 = Done (Value VNil)).
Proof. split; (eexists; split; [reflexivity|]); vm_compute; repeat split. Qed.
Print Assumptions C117_unset_refuted.

(** IsSet answers true for a bool that was never set, and for an int set to its default value *)
Theorem C117_is_set_refuted :
  exists d, run [Set_ 0 3 (VInt 0) false] = Done d /\
    isSet_ d 0 3 = Done true /\ adefault (attribute ex 3) = VInt 0 /\ isSet_ d 0 1 = Done true.
Proof. eexists. split; [reflexivity|]. vm_compute. repeat split. Qed.
Print Assumptions C117_is_set_refuted.

(** ** C118: attributes declared by the class of the object are read as they were last set *)
Theorem C118_get_last : forall M class_of sprint convert_sql, proper M -> forall ks, Forall (regular M class_of) ks ->
  exists d, performAll M class_of sprint convert_sql fresh ks = Done d /\
  forall o f, declared M class_of o f ->
    (touched ks o -> get M class_of d o f =
       Done (Value (match last_value M ks o f None with Some v => v | None => never_set M f end))) /\
    (~ touched ks o -> get M class_of d o f = Done (Value VNil)).
Proof. exact get_after. Qed.
Print Assumptions C118_get_last.

(** ** C119: what IsSet answers *)
Theorem C119_is_set : forall M class_of sprint convert_sql, proper M -> forall ks, Forall (regular M class_of) ks ->
  exists d, performAll M class_of sprint convert_sql fresh ks = Done d /\
  forall o f, declared M class_of o f ->
    let a := attribute M f in
    (~ touched ks o -> isSet M class_of d o f = Done false) /\
    (touched ks o -> last_value M ks o f None = None -> isSet M class_of d o f = Done (match adefault a with VNil => false | _ => true end)) /\
    (touched ks o -> forall v, last_value M ks o f None = Some v -> database_kind (akind a) -> holdable M f v -> holdable M f (adefault a) ->
      exists b, isSet M class_of d o f = Done b /\ (b = true <-> v <> adefault a)) /\
    (touched ks o -> converted_kind (akind a) -> holdable M f (adefault a) -> isSet M class_of d o f = Done true).
Proof. exact isSet_after. Qed.
Print Assumptions C119_is_set.

(** ** C120: the feature of the container of a child *)
Definition C120_statement : Prop :=
  forall M class_of sprint convert_sql ks o c f, proper M -> Forall (regular M class_of) ks -> ~ touched ks o -> o <> c ->
    In f (features M (containing M f)) -> In f (features M (class_of c)) ->
    exists d, performAll M class_of sprint convert_sql fresh ks = Done d /\
    let d' := fst (encodeChild M class_of d o c f) in
    exists k, sid d' c = Some k /\ getContainer M d' o = Some (k, Some f).
(** a child stored in b of an instance of Both is later found in a *)
Theorem C120_multiple_inheritance_refuted :
  ~ C120_statement /\
  getContainer ex (fst (encodeChild ex ex_class fresh 0 4 6)) 0 = Some (1, Some 5%nat).
Proof.
  assert (X : getContainer ex (fst (encodeChild ex ex_class fresh 0 4 6)) 0 = Some (1, Some 5%nat)) by (vm_compute; reflexivity).
  split; [|exact X]. intro H.
  destruct (H ex ex_class (fun _ => []) (fun _ x => x) [] 0%nat 4%nat 6%nat ex_proper) as (d & E & k & _ & G).
  - constructor.
  - intros (k & [] & _).
  - discriminate.
  - cbn. auto.
  - cbn. auto.
  - injection E as <-. rewrite X in G. discriminate.
Qed.
Print Assumptions C120_multiple_inheritance_refuted.

(** ** C121: containers are those given last *)
Theorem C121_container : forall M class_of sprint convert_sql, proper M -> forall ks, Forall (regular M class_of) ks ->
  exists d, performAll M class_of sprint convert_sql fresh ks = Done d /\
  forall o,
    (last_container ks o None = None -> getContainer M d o = None) /\
    (forall c f, last_container ks o None = Some (c, f) -> In f (features M (class_of c)) ->
      exists k, sid d c = Some k /\ getContainer M d o = Some (k, Some f) /\ forall c', sid d c' = Some k -> c' = c).
Proof. exact container_after. Qed.
Print Assumptions C121_container.
(** and the one a child is first stored with, when the features of the declaring class come first *)
Theorem C121_first_container : forall M class_of sprint convert_sql, proper M -> forall ks o c f,
  Forall (regular M class_of) ks -> ~ touched ks o -> o <> c ->
  In f (features M (containing M f)) -> (exists l, features M (class_of c) = features M (containing M f) ++ l) ->
  exists d, performAll M class_of sprint convert_sql fresh ks = Done d /\
  let d' := fst (encodeChild M class_of d o c f) in
  exists k, sid d' c = Some k /\ getContainer M d' o = Some (k, Some f).
Proof. exact child_container. Qed.
Print Assumptions C121_first_container.

(** two objects, values set twice, an enumeration, a container *)
Definition ex_calls : list call :=
  [Set_ 0 0 (VInt 5) true; Set_ 0 2 (VInt 2) true; Set_ 1 4 (VInt 9) false; SetContainer_ 1 4 6; Set_ 0 2 (VInt 1) true; UnSet_ 0 1; Set_ 0 0 (VInt (-3)) false].
Example ex_calls_regular : Forall (regular ex ex_class) ex_calls.
Proof.
  assert (I : forall n, - 2 ^ 63 <= n < 2 ^ 63 -> forall f, attribute ex f = attribute0 sfkInt (VInt 0) -> holdable ex f (VInt n)).
  { intros n Hn f E. unfold holdable. rewrite E. split; [discriminate|]. exists "int". repeat split; cbn in *; lia. }
  assert (E : forall n l, nth_error colors (Z.to_nat n) = Some l -> lvalue l = n + 1 -> (n = 0 \/ n = 1) -> holdable ex 2 (VInt (n + 1))).
  { intros n l _ _ [-> | ->]; (split; [discriminate|]).
    - exists colors, (lit "red"), (mkL (lit "red") [] 1 VNil). repeat split. right. split; reflexivity.
    - exists colors, (lit "green"), (mkL (lit "green") [] 2 VNil). repeat split. right. split; reflexivity. }
  unfold ex_calls. repeat apply Forall_cons; try apply Forall_nil.
  - split; [cbn; tauto|]. apply I; [lia|reflexivity].
  - split; [cbn; tauto|]. exact (E 1 _ eq_refl eq_refl (or_intror eq_refl)).
  - split; [cbn; tauto|]. apply I; [lia|reflexivity].
  - exact Logic.I.
  - split; [cbn; tauto|]. exact (E 0 _ eq_refl eq_refl (or_introl eq_refl)).
  - split; [cbn; tauto|]. split; [exact Logic.I|]. split; [discriminate|]. exists "bool". repeat split.
  - split; [cbn; tauto|]. apply I; [lia|reflexivity].
Qed.
Example ex_calls_run :
  match run ex_calls with
  | Done d =>
      get_ d 0 0 = Done (Value (VInt (-3))) /\ get_ d 0 2 = Done (Value (VInt 1)) /\ get_ d 0 1 = Done (Value (VBool true)) /\
      get_ d 1 4 = Done (Value (VInt 9)) /\ get_ d 0 3 = Done (Value (VInt 0)) /\ getContainer ex d 1 = Some (3, Some 6%nat)
  | _ => False
  end.
Proof. vm_compute. repeat split. Qed.
