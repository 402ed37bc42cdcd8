(** Specification vocabulary for the generated classes: which calls a typed program makes on them, and
    what the same calls are on dynamic objects of the same metamodel. *)
From Verif Require Import Base ListModel ListSpec GraphModel GraphSpec EcoreSyntax EcoreTables EcoreModel.

(** the description of a feature says that it may be changed *)
Definition changeable (f : feature) : bool :=
  match description_of f with Some d => d_changeable d | None => false end.
(** EReference.eReferenceType, if the type is a class *)
Definition reference_type (f : feature) : option nat :=
  match description_of f with Some d => d_type d | None => None end.
(** EAnnotation.details, the map of an annotation *)
Definition details : feature :=
  match accessor "GetEAnnotation_Details" with Some f => f | None => feature_count end.

Section Calls.
  Context (classOf : obj -> nat).
  Notation M := (ecore classOf).

  (** x may be put in f as far as types go: every object is an EObject *)
  Definition well_typed (f : feature) (x : obj) : Prop :=
    reference_type f = Some cEObject \/
    exists t, reference_type f = Some t /\ conforms (classOf x) t = true.

  (** a reference that can be changed, other than an annotation's details *)
  Definition editable (o : obj) (f : feature) : Prop :=
    In f (features M o) /\ is_reference f = true /\ changeable f = true /\ f <> details.

  (** a call as a typed program can make it *)
  Definition gen_legal (s : state) (p : call) : Prop :=
    match p with
    | CSet o f (VObj v) => editable o f /\ f_many M f = false /\ forall x, v = Some x -> well_typed f x
    | CSet o f (VList (Ext l)) =>
        editable o f /\ f_many M f = true /\ op_ok Nat.eqb [] (AddAll (Ext l)) /\ forall x, In x l -> well_typed f x
    | CSet o f (VList Self) => False
    | CUnset o f => editable o f
    | CList o f p =>
        editable o f /\ f_many M f = true /\ op_ok Nat.eqb (slot s o f) p
        /\ forall x, In x (op_args p) -> well_typed f x
    | CContents r p => op_ok Nat.eqb (contents s r) p
    end.

  (** the same on dynamic objects: ESet of a many-valued reference replaces the elements, EUnset
      empties the reference through its list or sets it to nil *)
  Definition dynamic_calls (p : call) : list gop :=
    match p with
    | CSet o f (VObj v) => [OSet o f v]
    | CSet o f (VList c) => [OList o f Clear; OList o f (AddAll c)]
    | CUnset o f => if f_many M f then [OList o f Clear] else [OSet o f None]
    | CList o f p => [OList o f p]
    | CContents r p => [OContents r p]
    end.

  (** states reached by calls on generated objects; a call that has not returned reaches none *)
  Inductive gen_reachable : state -> Prop :=
  | gen_init : gen_reachable init
  | gen_step s p n s' : gen_reachable s -> gen_legal s p -> genStep classOf n s p = Some (Some s') -> gen_reachable s'.

  (** the same with calls on details allowed *)
  Definition gen_typed_call (s : state) (p : call) : Prop :=
    match p with
    | CList o f p =>
        In f (features M o) /\ f_many M f = true /\ changeable f = true /\ op_ok Nat.eqb (slot s o f) p
        /\ forall x, In x (op_args p) -> well_typed f x
    | _ => gen_legal s p
    end.
  Inductive gen_reachable_any : state -> Prop :=
  | gen_any_init : gen_reachable_any init
  | gen_any_step s p n s' : gen_reachable_any s -> gen_typed_call s p -> genStep classOf n s p = Some (Some s') ->
      gen_reachable_any s'.
End Calls.

(** ** Tables *)
Definition feature_name (f : feature) : string :=
  match description_of f with Some d => d_name d | None => ""%string end.
Definition cases {A} (t : class -> list (Z * A)) (c : nat) (id : Z) : Prop := find_case t (structs c) id <> None.

(** What the sources of a class say agrees with what ecorepackage_impl.go says of it: the class and
    number of features it names, the struct it embeds, the constants, and the cases of its switches. *)
Definition class_agrees (c : nat) : Prop :=
  c_static (class_at c) = (c, zlen (featuresOf c))
  /\ In (c, zlen (featuresOf c)) feature_counts
  /\ supers c = to_list (c_embeds (class_at c))
  /\ (forall name id, In (c, name, id) constants <-> exists f, zget (featuresOf c) id = Some f /\ feature_name f = name)
  /\ (forall f id, zget (featuresOf c) id = Some f ->
        featureID (ecore_info f) = id
        /\ cases c_get c id /\ cases c_isSet c id
        /\ (cases c_set c id <-> changeable f = true) /\ (cases c_unset c id <-> changeable f = true)).

(** the list of a many-valued reference is kept for that reference, with the features it is linked by *)
Definition list_agrees (f : feature) (l : list_args) : Prop :=
  l_slot l = f /\ l_id l = featureID (ecore_info f)
  /\ l_containment l = containment (ecore_info f)
  /\ (l_inverse l = true <-> opposite (ecore_info f) <> None \/ containment (ecore_info f) = true)
  /\ match opposite (ecore_info f) with
     | Some g => l_opposite l = true /\ l_inverseID l = featureID (ecore_info g)
     | None => l_opposite l = false
     end.

(** ** Observations *)
Definition gen_holds (classOf : obj -> nat) (s : state) (o : obj) (f : feature) (x : obj) : Prop :=
  exists l, genEGet classOf s o f = Some l /\ In x l.

(** ** Attributes *)
(** instanceTypeName and literal are read from other attributes too, and the default value and the
    classifier number are computed *)
Definition plain_attribute (f : feature) : bool :=
  negb (is_reference f) && changeable f
  && negb (existsb (String.eqb (feature_name f)) ["instanceTypeName"; "classifierID"; "literal"; "defaultValue"]%string).
(** the value of a default literal, [zero] if there is none; numbers are 1 and -1 in Ecore *)
Definition parse_default (text : string) (zero : literal) : option literal :=
  (if String.eqb text "" then Some zero
   else match zero with
        | LBool _ => if String.eqb text "true" then Some (LBool true) else None
        | LInt _ => if String.eqb text "-1" then Some (LInt (-1)) else if String.eqb text "1" then Some (LInt 1) else None
        | _ => None
        end)%string.
(** of the Go type with that zero value *)
Definition of_type (zero : literal) (v : avalue) : Prop :=
  match zero, v with
  | LBool _, AV (LBool _) | LInt _, AV (LInt _) | LStr _, AV (LStr _) | LNil, AOther _ => True
  | _, _ => False
  end.
Definition default_text (f : feature) : string :=
  match description_of f with Some d => d_default d | None => ""%string end.

(** ** Notifications *)
(** the notifications of ESet and EUnset name the feature *)
Definition announced (classOf : obj -> nat) (o : obj) (f : feature) : Prop :=
  exists id, feature_at (ecore classOf) o id = Some f
    /\ set_announces (classOf o) id = Some id /\ unset_announces (classOf o) id = Some id.
