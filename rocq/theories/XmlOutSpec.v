(** What is well-formed XML text, restricted to what the writer uses: a prolog, elements, attributes,
    character data and references.  Not required here: that attribute names are unique within an element, that prefixes
    are declared, and that "]]>" and control characters do not occur in character data. *)
From Coq Require Import String.
From Verif Require Import Base Chars XmlOutModel.
Open Scope Z_scope.

(** less, greater, slash, equals, quotes, ampersand, semicolon, question and exclamation marks, white space *)
Definition special : list Z := [60; 62; 47; 61; 34; 39; 38; 59; 63; 33; 32; 9; 10; 13].
Definition name (n : str) : Prop := n <> [] /\ forall c, In c n -> ~ In c special.
Definition white (s : str) : Prop := forall c, In c s -> In c [32; 9; 10; 13].

(** text without < and with & only in references; [extra] characters are forbidden too *)
Inductive char_data (extra : list Z) : str -> Prop :=
| cd_nil : char_data extra []
| cd_char c s : c <> 60 -> c <> 38 -> ~ In c extra -> char_data extra s -> char_data extra (c :: s)
| cd_ref e s : name e -> char_data extra s -> char_data extra ([38] ++ e ++ [59] ++ s).

Inductive attributes : str -> Prop :=
| at_nil : attributes []
| at_cons sp n v rest : sp <> [] -> white sp -> name n -> char_data [34] v -> attributes rest -> attributes (sp ++ n ++ lit "=""" ++ v ++ lit """" ++ rest).

Inductive element : str -> Prop :=
| el_empty n a : name n -> attributes a -> element (lit "<" ++ n ++ a ++ lit "/>")
| el_full n a c : name n -> attributes a -> content c -> element (lit "<" ++ n ++ a ++ lit ">" ++ c ++ lit "</" ++ n ++ lit ">")
with content : str -> Prop :=
| co_nil : content []
| co_text t c : char_data [] t -> content c -> content (t ++ c)
| co_element e c : element e -> content c -> content (e ++ c).

Definition document (s : str) : Prop :=
  exists version encoding e w1 w2, char_data [34] version /\ char_data [34] encoding /\ element e /\ white w1 /\ white w2 /\
  s = lit "<?xml version=""" ++ version ++ lit """ encoding=""" ++ encoding ++ lit """?>" ++ w1 ++ e ++ w2.

(** ** Objects whose texts can be written *)
Definition good_target (t : target) : Prop :=
  char_data [34] (t_class t) /\ (forall id, t_id t = Some id -> char_data [34] id) /\ char_data [34] (t_href t) /\ char_data [34] (t_idref t).

(** the value has the shape which the feature requires; values of many-valued attributes need no escaping *)
Definition good_slot (f : feature) (v : value) : Prop :=
  name (f_name f) /\
  if f_reference f then
    if f_containment f then (if f_many f then exists os, v = VChildren os else v = VNil \/ exists o, v = VChild o)
    else (if f_many f then exists ts, v = VRefs ts /\ forall t, In (Some t) ts -> good_target t else v = VNil \/ exists t, v = VRef t /\ good_target t)
  else (if f_many f then exists ts, v = VDatas ts /\ forall t, In (Some t) ts -> char_data [] t else v = VNil \/ exists t, v = VData t).

Inductive good : obj -> Prop :=
| good_obj t slots : good_target t ->
    (forall f b v, In (mkS f b v) slots -> good_slot f v) ->
    (forall f b o, In (mkS f b (VChild o)) slots -> good o) ->
    (forall f b os o, In (mkS f b (VChildren os)) slots -> In (Some o) os -> good o) ->
    good (mkO t slots).

(** ** What an attribute value means *)
(** the references which XML predefines, and decimal character references *)
Fixpoint decimal (acc : Z) (s : str) : option Z :=
  match s with
  | [] => Some acc
  | c :: s' => if (48 <=? c) && (c <=? 57) then decimal (10 * acc + (c - 48)) s' else None
  end.
Definition entity (e : str) : option Z :=
  if str_eqb e (lit "amp") then Some 38 else if str_eqb e (lit "lt") then Some 60 else if str_eqb e (lit "gt") then Some 62
  else if str_eqb e (lit "quot") then Some 34 else if str_eqb e (lit "apos") then Some 39
  else match e with 35 :: x :: d => decimal 0 (x :: d) | _ => None end.
Inductive denotes : str -> str -> Prop :=
| dn_nil : denotes [] []
| dn_char c s t : c <> 38 -> c <> 60 -> denotes s t -> denotes (c :: s) (c :: t)
| dn_ref e c s t : name e -> entity e = Some c -> denotes s t -> denotes ([38] ++ e ++ [59] ++ s) (c :: t).
