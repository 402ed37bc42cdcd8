(** Lexical namespace scopes, and what a correct prefix allocation guarantees. *)
From Verif Require Import Base XmlNsModel.

(** innermost scope first; inside a scope latest declaration first *)
Definition scopes := list (list (str * str)).

Fixpoint replace_prefix (p u : str) (sc : list (str * str)) : option (list (str * str)) :=
  match sc with
  | [] => None
  | (q, v) :: r => if str_eqb q p then Some ((q, u) :: r)
                   else match replace_prefix p u r with Some r' => Some ((q, v) :: r') | None => None end
  end.

Definition spec_ns_step (s : scopes) (o : nsop) : option scopes :=
  match o, s with
  | Push, _ => Some ([] :: s)
  | Pop, _ :: s' => Some s'
  | Declare p u, sc :: s' =>
      Some (match replace_prefix p u sc with Some sc' => sc' :: s' | None => ((p, u) :: sc) :: s' end)
  | _, [] => None
  end.
Fixpoint spec_ns_run (s : scopes) (ops : list nsop) : option scopes :=
  match ops with
  | [] => Some s
  | o :: r => match spec_ns_step s o with Some s' => spec_ns_run s' r | None => None end
  end.

(** innermost declaration of a prefix, of a URI *)
Definition spec_uri (s : scopes) (p : str) : option str :=
  option_map snd (find (fun d => str_eqb (fst d) p) (concat s)).
Definition spec_prefix (s : scopes) (u : str) : option str :=
  option_map fst (find (fun d => str_eqb (snd d) u) (concat s)).

(** [high] declarations have been live at once so far; a new declaration is only made when all of them are *)
Definition live (s : scopes) : nat := length (concat s).
Fixpoint never_shrunk (s : scopes) (high : nat) (ops : list nsop) : Prop :=
  match ops with
  | [] => True
  | o :: r =>
      match o, s with
      | Declare p u, sc :: _ => replace_prefix p u sc = None -> live s = high
      | _, _ => True
      end /\
      match spec_ns_step s o with
      | Some s' => never_shrunk s' (Nat.max high (live s')) r
      | None => True
      end
  end.

(** every package with a prefix has one that denotes its namespace *)
Definition prefixes_sound (s : xenc) (uri_of : nat -> str) : Prop :=
  forall i x, packages s i = Some x -> prefixesToURI s x = Some (uri_of i).

(** declarations that do not rebind a prefix to another namespace *)
Definition xop_ok (xsiURI : str) (s : xenc) (uri_of : nat -> str) (o : xop) : Prop :=
  match o with
  | GetPrefix p _ => nsURI p = uri_of (pid p)
  | DeclareXsi => forall u, prefixesToURI s xsiNS = Some u -> u = xsiURI
  | SetEntry x u pk => (forall v, prefixesToURI s x = Some v -> v = u) /\
                       match pk with Some p => nsURI p = u /\ uri_of (pid p) = u | None => True end
  end.
Fixpoint xhistory_ok (xsiURI : str) (s : xenc) (uri_of : nat -> str) (ops : list xop) : Prop :=
  match ops with
  | [] => True
  | o :: r => xop_ok xsiURI s uri_of o /\
              match xstep xsiURI s o with Done s' => xhistory_ok xsiURI s' uri_of r | Diverges => True end
  end.

(** the content of an element: declarations of the element, then child elements *)
Inductive content : list nsop -> Prop :=
| content_nil : content []
| content_child d c r : Forall (fun o => exists p u, o = Declare p u) d -> content c -> content r ->
    content (Push :: d ++ c ++ Pop :: r).
