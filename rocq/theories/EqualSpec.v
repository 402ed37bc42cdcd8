(** Specification of Equals: matchings of objects. *)
From Verif Require Import Base EqualModel.

(** two lists of the same length whose elements correspond *)
Definition same_primitives (deep : nat -> nat -> bool) (l1 l2 : list nat) : Prop := Forall2 (fun p q => deep p q = true) l1 l2.

Definition same_attribute (deep : nat -> nat -> bool) (many : bool) (v w : aval) : Prop :=
  match v, w with
  | ANil, ANil => True
  | APrim p, APrim q => many = false /\ deep p q = true
  | AList l1, AList l2 => many = true /\ same_primitives deep l1 l2
  | _, _ => False
  end.

(** two objects have the same value of a feature, up to the matching of the objects they refer to *)
Definition same_feature (deep : nat -> nat -> bool) (F : features) (S : snapshot) (M : obj -> obj -> Prop) (a b : obj) (f : feature) : Prop :=
  eIsSet S a f = eIsSet S b f /\
  (eIsSet S a f = true ->
   if isAttribute F f then same_attribute deep (isMany F f) (eAttr S a f) (eAttr S b f)
   else Forall2 M (eRefs S a f) (eRefs S b f) /\ (isMany F f = false -> length (eRefs S a f) = 1%nat)).

(** two objects look the same: one object, two proxies of one URI, or two objects of one class with the same
    values of the features of that class *)
Definition look_same deep F S M (a b : obj) : Prop :=
  a = b \/
  (exists u, proxyURI S a = Some u /\ proxyURI S b = Some u) \/
  (proxyURI S a = None /\ proxyURI S b = None /\ eClass S a = eClass S b /\
   forall f, In f (ownFeatures F (eClass S a)) -> isDerived F f = false -> same_feature deep F S M a b f).

(** a matching: each object has at most one partner, of which it is the partner, and looks the same *)
Record matching deep F S (M : obj -> obj -> Prop) : Prop := mkMatching {
  partner_sym : forall a b, M a b -> M b a;
  partner_one : forall a b c, M a b -> M a c -> b = c;
  partner_same : forall a b, M a b -> look_same deep F S M a b
}.

(** a finite set of objects closed under references *)
Definition closed (S : snapshot) (U : list obj) : Prop := forall a f b, In a U -> In b (eRefs S a f) -> In b U.
(** the values of features have the shape that their metamodel tells: no type assertion can fail *)
Definition well_typed (F : features) (S : snapshot) : Prop :=
  forall a f, eIsSet S a f = true -> isDerived F f = false -> In f (ownFeatures F (eClass S a)) ->
    if isAttribute F f
    then match eAttr S a f with ANil => True | APrim _ => isMany F f = false | AList _ => isMany F f = true end
    else isMany F f = false -> length (eRefs S a f) = 1%nat.
