(** What a metamodel should report about itself, in terms of its lists and attributes only. *)
From Verif Require Import Base Chars FloatModel LiteralModel MetaModel.

(** nothing has been computed yet *)
Definition fresh (w : world) : Prop :=
  (forall c, cvalue (classifiers w c) = VNil /\ cvalueset (classifiers w c) = false /\ cnumber (classifiers w c) = -1)
  /\ (forall p, pcache (packages w p) = None /\ pdeliver (packages w p) = true)
  /\ (forall f, fvalue (features w f) = VNil /\ fvaluefactory (features w f) = None /\ freftype (features w f) = None)
  /\ (forall e, metadata w e = None).
(** a classifier is in the list of its package, once, and in no other list *)
Definition consistent (w : world) : Prop :=
  (forall p, NoDup (pclassifiers (packages w p)))
  /\ (forall p c, In c (pclassifiers (packages w p)) <-> cpackage (classifiers w c) = Some p).

(** the answer to the question which classifier of the package has the name: the last one *)
Definition last_named (name : nat -> str) (l : list nat) (n : str) (r : option nat) : Prop :=
  match r with
  | Some c => exists l1 l2, l = l1 ++ c :: l2 /\ name c = n /\ (forall d, In d l2 -> name d <> n)
  | None => forall d, In d l -> name d <> n
  end.
Definition named (w : world) (p : nat) : str -> option nat -> Prop :=
  last_named (fun c => cname (classifiers w c)) (pclassifiers (packages w p)).

(** the name of a classifier in documents: that of its annotation if there is one *)
Definition document_name (w : world) (c : nat) : str :=
  match cext (classifiers w c) with Some n => n | None => cname (classifiers w c) end.
(** the answer to the question which classifier of the package has the name in documents *)
Definition typed (w : world) (p : nat) (n : str) (r : option nat) : Prop :=
  match r with
  | Some c => In c (pclassifiers (packages w p)) /\ document_name w c = n
  | None => forall c, In c (pclassifiers (packages w p)) -> document_name w c <> n
  end.
Definition distinct_names (w : world) (p : nat) : Prop :=
  NoDup (map (document_name w) (pclassifiers (packages w p))).

(** the default value of a data type: that given to it, otherwise that of its instance type *)
Definition declared_default (x : classifier) : gval :=
  match cdata x with
  | None => VNil
  | Some d => match denum d with
              | Some [] => VNil
              | Some (l :: _) => VInt (lvalue l)
              | None => if cvalueset x then cvalue x else getDefaultValue d
              end
  end.
(** it may have several values: a bound above one, or none (-1) *)
Definition several (x : feature) : bool := if fupper x =? -1 then true else 2 <=? fupper x.
(** the default value of a feature: with a literal, the value that the factory of its type makes of it ([None]: it
    refuses it); without, the default value of its type *)
Definition default_of (create : nat -> datatype -> str -> option gval) (w : world) (f : nat) : option gval :=
  let x := features w f in
  match ftype x with
  | None => Some VNil
  | Some c =>
      let y := classifiers w c in
      match fliteral x with
      | [] => if several x then Some VNil else Some (declared_default y)
      | s => match cdata y with
             | None => Some VNil
             | Some d => match cpackage y with
                         | None => Some VNil
                         | Some p => match pfactory (packages w p) with
                                     | None => Some VNil
                                     | Some g => if cserial y then create g d s else Some VNil
                                     end
                         end
             end
      end
  end.

(** the class that is the type of a feature *)
Definition class_of (w : world) (f : nat) : option nat :=
  match ftype (features w f) with
  | Some c => match cdata (classifiers w c) with None => Some c | Some _ => None end
  | None => None
  end.

(** ** histories *)
(** no classifier changes its name, and packages notify *)
Definition keeps_names (o : op) : Prop :=
  match o with Rename _ _ | Deliver _ false => False | _ => True end.
(** a change of the list of the classifiers of [p] *)
Definition changes_list (p : nat) (o : op) (w : world) : Prop :=
  match o with
  | AddClassifier q c => q = p /\ ~ In c (pclassifiers (packages w p))
  | RemoveClassifier q c => q = p /\ In c (pclassifiers (packages w p))
  | _ => False
  end.
(** the package [p] only receives classifiers: those of [member]; others go to other packages *)
Definition only_receives (p : nat) (member : nat -> Prop) (o : op) : Prop :=
  match o with
  | RemoveClassifier q c => ~ member c
  | AddClassifier q c => q = p <-> member c
  | _ => True
  end.
(** no classifier changes its name in documents, and the name of a package is not asked for *)
Definition keeps_document_names (o : op) : Prop :=
  match o with Rename _ _ | Annotate _ _ | AskName (Pk _) => False | _ => True end.
(** the type of [f], which is [c], does not change *)
Definition keeps_type (f : nat) (t : option nat) (o : op) : Prop :=
  match o with
  | SetType g _ => g <> f
  | SetInstanceTypeName c _ | SetSerializable c _ | AddClassifier _ c | RemoveClassifier _ c => t <> Some c
  | _ => True
  end.
(** the type of [f] is only ever set to [c] *)
Definition sets_only (f c : nat) (o : op) : Prop :=
  match o with SetType g t => g = f -> t = Some c | _ => True end.
(** the instance type name and the default value of the data type [c] are not set *)
Definition keeps_data_type (c : nat) (o : op) : Prop :=
  match o with SetInstanceTypeName d _ | SetTypeDefault d _ => d <> c | _ => True end.
