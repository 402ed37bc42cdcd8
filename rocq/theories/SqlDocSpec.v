(** Specification of saving and loading a resource in a SQL database. *)
From Coq Require Import String.
From Verif Require Import Base Chars StrconvModel SqlSchemaModel SqlValueModel SqlDocModel.
Local Open Scope list_scope.
Local Open Scope Z_scope.

Section Spec.
  Context {D C : Type} (M : meta D C) (G : source D) (O : options).

  (** all features of the class of an object *)
  Definition all_features (c : nat) : list nat := flat_map (own M) (hierarchy M c).
  (** the kinds: part of the document (objects are saved with the one that has them), links, values *)
  Definition holds_objects (f : nat) : Prop := fkind M f = sfkObject \/ fkind M f = sfkObjectList.
  Definition holds_links (f : nat) : Prop := fkind M f = sfkObjectReference \/ fkind M f = sfkObjectReferenceList.
  Definition holds_values (f : nat) : Prop := ~ holds_objects f /\ ~ holds_links f /\ fkind M f <> sfkTransient.
  Definition single (f : nat) : Prop :=
    fkind M f <> sfkObjectList /\ fkind M f <> sfkObjectReferenceList /\ fkind M f <> sfkDataList.

  (** the value of a feature the document has to give back: the default value of an attribute that is not set counts
      with SQL_OPTION_KEEP_DEFAULTS *)
  Definition intended (o f : nat) : list (item D) :=
    match value G o f with
    | Some l => l
    | None => if keep_defaults O && has_literal M f then match fdefault M f with Some d => [IData d] | None => [] end else []
    end.

  (** the objects of the document of a root *)
  Inductive reach (r : nat) : nat -> Prop :=
  | reach_root : reach r r
  | reach_step o f x : reach r o -> In f (all_features (oclass G o)) -> holds_objects f -> In (IObj x) (intended o f) -> reach r x.

  (** features belong to one class, and classes occur once in a hierarchy *)
  Record proper : Prop := mkProper {
    p_hierarchy : forall c, NoDup (hierarchy M c);
    p_own : forall c, NoDup (own M c);
    p_owner : forall c c' f, In f (own M c) -> In f (own M c') -> c = c' }.

  (** the values of an object fit its features; the values of attributes are read back from columns; unique lists
      have no duplicates *)
  Definition fits (o f : nat) : Prop :=
    (single f -> (length (intended o f) <= 1)%nat) /\
    (holds_objects f \/ holds_links f -> forall x, In x (intended o f) -> exists t, x = IObj t) /\
    (holds_values f -> forall x, In x (intended o f) -> exists d, x = IData d /\ uncell M f (cell M f d) = Some d) /\
    (~ single f -> funique M f = true -> NoDup (intended o f)).
  Definition valid (r : nat) : Prop := forall o, reach r o -> forall f, In f (all_features (oclass G o)) -> fits o f.
  (** the equality of lists is right for equal values only *)
  Definition exact_equality : Prop := forall a b, same_data M a b = true -> a = b.

  (** [n]: the numbers of the saved objects.  A link whose target is not saved yet can be a proxy *)
  Definition proxy_possible (f t : nat) : Prop :=
    uri G t <> [] /\ snd (parse_int 64 (uri G t)) = false /\ abstract M (ftarget M f) = false.
  Definition linked (n : nat -> option Z) (o t : nat) : Prop := exists i k, n o = Some i /\ n t = Some k /\ k <= i.
  Definition links_ok (n : nat -> option Z) : Prop :=
    forall o f t, n o <> None -> In f (all_features (oclass G o)) -> holds_links f -> In (IObj t) (intended o f) ->
      linked n o t \/ proxy_possible f t.

  (** what an element becomes: a link to an object saved before (the object itself included) is that object; a link
      to another one may be a proxy for it *)
  Definition item_restored (n : nat -> option Z) (o f : nat) (x : item D) (y : loaded_item D) : Prop :=
    match x with
    | IData d => y = LData d
    | IObj t =>
        (exists k, n t = Some k /\ y = LObj k) \/
        (holds_links f /\ ~ linked n o t /\ y = LProxy (ftarget M f) (uri G t))
    end.
  (** what a feature becomes: an attribute without value is set to what NULL stands for *)
  Definition feature_restored (n : nat -> option Z) (o f : nat) (v : option (list (loaded_item D))) : Prop :=
    match intended o f with
    | [] => fkind M f = sfkTransient /\ v = None \/ (holds_objects f \/ holds_links f \/ ~ single f) /\ v = None \/
            holds_values f /\ single f /\ v = match null_value M f with Some d => Some [LData d] | None => None end
    | l => fkind M f = sfkTransient /\ v = None \/
           exists ys, v = Some ys /\ Forall2 (item_restored n o f) l ys
    end.

  (** the loaded resource is the saved root, with the objects of its document and no others *)
  Record restored (r : nat) (n : nat -> option Z) (L : loaded D) : Prop := mkRestored {
    s_root : exists i, n r = Some i /\ l_roots L = [i];
    s_objects : forall o, n o <> None <-> reach r o;
    s_distinct : forall o o' i, n o = Some i -> n o' = Some i -> o = o';
    s_class : forall o i, n o = Some i -> l_class L i = Some (oclass G o);
    s_others : forall i, l_class L i <> None -> exists o, n o = Some i;
    s_features : forall o i, n o = Some i -> forall f, In f (all_features (oclass G o)) -> feature_restored n o f (l_value L i f);
    s_identity : object_id O = true -> container_id O = false -> forall o i t, n o = Some i -> identity G o = Some t -> l_identity L i = Some t }.
End Spec.

(** the document is given back exactly: its roots, features, links and identifiers *)
Section Exact.
  Context {D C : Type} (M : meta D C) (G : source D) (O : options).
  Definition exact_item (n : nat -> option Z) (x : item D) (y : loaded_item D) : Prop :=
    match x with IData d => y = LData d | IObj t => exists k, n t = Some k /\ y = LObj k end.
  Definition exact_value (n : nat -> option Z) (v : option (list (item D))) (w : option (list (loaded_item D))) : Prop :=
    match v, w with
    | None, None => True
    | Some l, Some l' => Forall2 (exact_item n) l l'
    | Some [], None => True
    | _, _ => False
    end.
  Record exactly_restored (n : nat -> option Z) (L : loaded D) : Prop := mkExactly {
    x_roots : Forall2 (fun o i => n o = Some i) (roots G) (l_roots L);
    x_features : forall o i, n o = Some i -> forall f, In f (all_features M (oclass G o)) -> fkind M f <> sfkTransient ->
      exact_value n (value G o f) (l_value L i f);
    x_identity : object_id O = true -> forall o i, n o = Some i -> l_identity L i = identity G o }.
End Exact.
