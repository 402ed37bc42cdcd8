(** Model of the JSON encoder: ecore/jsonencoder.go and ecore/jsoncodec.go.

    The text is written by github.com/karlseguin/jsonwriter, which is not modelled: the model gives the JSON value
    the calls describe.  The texts of values (ConvertToString), of references (getReference) and of
    classes (getClassName) are parameters.  keepDefaults is never set by the code (jsonencoder.go:21-31), so that
    only set features are written. *)
From Coq Require Import String.
From Verif Require Import Base Chars SqlSchemaModel.
Local Open Scope string_scope.
Local Open Scope list_scope.

(** jsoncodec.go:24-32 *)
Inductive jsonkind := jfkTransient | jfkData | jfkDataList | jfkObject | jfkObjectList | jfkObjectReference | jfkObjectReferenceList.

(** jsoncodec.go:34-72 *)
Definition getJSONCodecFeatureKind (f : feature) : jsonkind :=
  if ftransient f then jfkTransient
  else match ftyp f with
       | Reference containment many opposite_containment resolve_proxies _ =>
           if containment then if many then jfkObjectList else jfkObject
           else if opposite_containment then jfkTransient
           else if resolve_proxies then if many then jfkObjectReferenceList else jfkObjectReference
           else if many then jfkObjectList else jfkObject
       | Attribute many _ _ => if many then jfkDataList else jfkData
       end.

Inductive json := JStr (s : str) | JArr (l : list json) | JObj (l : list (str * json)).

(** what an encoding gives: a value, a Go panic, or the model stops *)
Inductive outcome (A : Type) := Written (a : A) | Panics | Unfinished.
Arguments Written {A} a. Arguments Panics {A}. Arguments Unfinished {A}.
Definition next {A B} (x : outcome A) (k : A -> outcome B) : outcome B :=
  match x with Written a => k a | Panics => Panics | Unfinished => Unfinished end.

Section Json.
  Context {D : Type}.
  (** classes and features are numbered; [features]: GetEAllStructuralFeatures *)
  Record meta := mkMeta {
    fname : nat -> str;
    fkind : nat -> jsonkind;
    features : nat -> list nat;
    class_name : nat -> str;
    convert : nat -> D -> str }.
  Inductive item := IData (d : D) | INil | IObj (o : nat).
  (** [value]: None if the feature is not set (EIsSet), else its elements; a single-valued feature has one *)
  Record source := mkSource {
    oclass : nat -> nat;
    value : nat -> nat -> option (list item);
    identity : nat -> option str;      (* GetID of the manager of the resource, None without one *)
    reference : nat -> str;
    roots : list nat }.

  Context (M : meta) (G : source).
  Context (id_name : str).             (* JSON_OPTION_ID_ATTRIBUTE_NAME *)

  (** jsonencoder.go:164-174 *)
  Definition getData (f : nat) (x : item) : option str :=
    match x with IData d => Some (convert M f d) | _ => None end.
  (** jsonencoder.go:76-79 *)
  Definition encodeObjectReference (o : nat) : json :=
    JObj [(lit "eClass", JStr (class_name M (oclass G o))); (lit "eRef", JStr (reference G o))].

  Section Values.
    Context (rec : nat -> outcome json).
    Fixpoint encodeObjects (l : list item) : outcome (list json) :=
      match l with
      | [] => Written []
      | IObj o :: l' => next (rec o) (fun j => next (encodeObjects l') (fun js => Written (j :: js)))
      | _ :: _ => Panics
      end.
    Fixpoint encodeReferences (l : list item) : outcome (list json) :=
      match l with
      | [] => Written []
      | IObj o :: l' => next (encodeReferences l') (fun js => Written (encodeObjectReference o :: js))
      | _ :: _ => Panics
      end.
    (** the type assertion value.(EObject) panics for nil *)
    Definition single (g : nat -> outcome json) (l : list item) : outcome json :=
      match l with [IObj o] => g o | _ => Panics end.

    (** jsonencoder.go:93-153; the result is what is added to the object being written *)
    Definition encodeFeatureValue (o f : nat) : outcome (list (str * json)) :=
      match value G o f with
      | None => Written []
      | Some l =>
          let named (j : json) := Written [(fname M f, j)] in
          match fkind M f with
          | jfkTransient => Written []
          | jfkData => match l with
                       | [x] => match getData f x with Some t => named (JStr t) | None => Written [] end
                       | _ => Written []
                       end
          | jfkDataList => named (JArr (flat_map (fun x => match getData f x with Some t => [JStr t] | None => [] end) l))
          | jfkObject => next (single rec l) named
          | jfkObjectList => next (encodeObjects l) (fun js => named (JArr js))
          | jfkObjectReference => next (single (fun o => Written (encodeObjectReference o)) l) named
          | jfkObjectReferenceList => next (encodeReferences l) (fun js => named (JArr js))
          end
      end.
    Fixpoint encodeFeatures (o : nat) (fs : list nat) : outcome (list (str * json)) :=
      match fs with
      | [] => Written []
      | f :: fs' => next (encodeFeatureValue o f) (fun a => next (encodeFeatures o fs') (fun b => Written (a ++ b)))
      end.
  End Values.

  (** jsonencoder.go:63-68 *)
  Definition encodeIdentity (o : nat) : list (str * json) :=
    match id_name, identity G o with
    | [], _ | _, None => []
    | _, Some t => [(id_name, JStr t)]
    end.
  (** jsonencoder.go:59-74 *)
  Fixpoint encodeObject (fuel : nat) (o : nat) : outcome json :=
    match fuel with
    | 0%nat => Unfinished
    | Datatypes.S n =>
        next (encodeFeatures (encodeObject n) o (features M (oclass G o))) (fun fs =>
          Written (JObj ((lit "eClass", JStr (class_name M (oclass G o))) :: encodeIdentity o ++ fs)))
    end.
  (** jsonencoder.go:33-41: nothing is written for an empty resource *)
  Definition encodeResource (fuel : nat) : outcome (option json) :=
    match roots G with
    | [] => Written None
    | o :: _ => next (encodeObject fuel o) (fun j => Written (Some j))
    end.
End Json.
Arguments meta : clear implicits.
Arguments item : clear implicits.
Arguments source : clear implicits.
