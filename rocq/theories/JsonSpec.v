(** Specification of the JSON of an object. *)
From Coq Require Import String.
From Verif Require Import Base Chars SqlSchemaModel JsonModel.
Local Open Scope string_scope.
Local Open Scope list_scope.

Fixpoint member (k : str) (l : list (str * json)) : option json :=
  match l with [] => None | (k', j) :: l' => if str_eqb k' k then Some j else member k l' end.

Section Spec.
  Context {D : Type} (M : meta D) (G : source D) (id_name : str).

  (** the members of the object of a reference *)
  Definition refers (o : nat) (j : json) : Prop :=
    exists l, j = JObj l /\ NoDup (map fst l) /\ length l = 2%nat /\
      member (lit "eClass") l = Some (JStr (class_name M (oclass G o))) /\ member (lit "eRef") l = Some (JStr (reference G o)).

  (** [j] is the JSON of the object: one member for its class, one for its identifier, one for each feature
      with a value, nothing else and nothing twice *)
  Inductive describes : nat -> json -> Prop :=
  | describes_object o l : NoDup (map fst l) ->
      member (lit "eClass") l = Some (JStr (class_name M (oclass G o))) ->
      (id_name <> [] -> member id_name l = option_map JStr (identity G o)) ->
      (forall f, In f (features M (oclass G o)) -> shown o f (member (fname M f) l)) ->
      (forall k, In k (map fst l) -> k = lit "eClass" \/ k = id_name \/ exists f, In f (features M (oclass G o)) /\ k = fname M f) ->
      describes o (JObj l)
  with shown : nat -> nat -> option json -> Prop :=
  | shown_unset o f : value G o f = None -> shown o f None
  | shown_transient o f : fkind M f = jfkTransient -> shown o f None
  | shown_nil o f : fkind M f = jfkData -> value G o f = Some [INil] -> shown o f None
  | shown_data o f d : fkind M f = jfkData -> value G o f = Some [IData d] -> shown o f (Some (JStr (convert M f d)))
  | shown_data_list o f ds : fkind M f = jfkDataList -> value G o f = Some (map IData ds) ->
      shown o f (Some (JArr (map (fun d => JStr (convert M f d)) ds)))
  | shown_object o f x j : fkind M f = jfkObject -> value G o f = Some [IObj x] -> describes x j -> shown o f (Some j)
  | shown_object_list o f xs js : fkind M f = jfkObjectList -> value G o f = Some (map IObj xs) ->
      Forall2 describes xs js -> shown o f (Some (JArr js))
  | shown_reference o f x j : fkind M f = jfkObjectReference -> value G o f = Some [IObj x] -> refers x j -> shown o f (Some j)
  | shown_reference_list o f xs js : fkind M f = jfkObjectReferenceList -> value G o f = Some (map IObj xs) ->
      Forall2 refers xs js -> shown o f (Some (JArr js)).

  (** values fit the features: a single-valued reference that is set has an object *)
  Definition fits (o f : nat) : Prop :=
    match value G o f with
    | None => True
    | Some l =>
        match fkind M f with
        | jfkTransient => True
        | jfkData => l = [INil] \/ exists d, l = [IData d]
        | jfkDataList => exists ds, l = map IData ds
        | jfkObject | jfkObjectReference => exists x, l = [IObj x]
        | jfkObjectList | jfkObjectReferenceList => exists xs, l = map IObj xs
        end
    end.
  (** objects written inside an object *)
  Definition inside (o x : nat) : Prop :=
    exists f l, In f (features M (oclass G o)) /\ (fkind M f = jfkObject \/ fkind M f = jfkObjectList) /\
      value G o f = Some l /\ In (IObj x) l.
  Inductive below (r : nat) : nat -> Prop :=
  | below_self : below r r
  | below_step o x : below r o -> inside o x -> below r x.
  (** the names of the members do not clash *)
  Definition distinct_members (c : nat) : Prop :=
    NoDup (map (fname M) (features M c)) /\ id_name <> lit "eClass" /\
    forall f, In f (features M c) -> fname M f <> lit "eClass" /\ fname M f <> id_name.
End Spec.

(** how a feature is written, by its declaration *)
Definition is_written (f : feature) : Prop :=
  ftransient f = false /\
  match ftyp f with Attribute _ _ _ => True | Reference containment _ opposite_containment _ _ => containment = true \/ opposite_containment = false end.
Definition is_nested (f : feature) : Prop :=
  match ftyp f with Attribute _ _ _ => False | Reference containment _ _ resolves _ => containment = true \/ resolves = false end.
Definition has_many (f : feature) : Prop :=
  match ftyp f with Attribute many _ _ => many = true | Reference _ many _ _ _ => many = true end.
Definition is_text (f : feature) : Prop := match ftyp f with Attribute _ _ _ => True | _ => False end.
