(** Model of the fragments of objects: ecore/eresource_impl.go (GetEObject, GetURIFragment and their helpers),
    ecore/abstracteobject.go (EObjectForFragmentSegment, EURIFragmentSegment), ecore/emodelelement_ext.go and
    ecore/ecoreutils.go (getRelativeURIFragmentPath, GetEObject).

    Objects and features are numbered; the state of the objects does not change during these calls, so it is a record of
    what the calls read.  Strings are lists of bytes; a digit which is not an ASCII digit is decided by [other_digit]. *)
From Coq Require Import String.
From Verif Require Import Base Chars StrconvModel.
Open Scope Z_scope.

Inductive value := VSingle (x : option nat) | VMany (l : list nat) | VData.
(** what EModelElementExt distinguishes: model elements with a name, annotations with a source, other objects *)
Inductive label := Named (n : str) | Annotation (source : str) | Other.

Record world := mkW {
  contents : list nat;                 (* GetContents() of the resource *)
  direct : nat -> bool;                (* EInternalResource() is the resource *)
  container : nat -> option nat;       (* EInternalContainer() *)
  containing : nat -> option nat;      (* EContainingFeature() *)
  f_name : nat -> str; f_many : nat -> bool;
  features : nat -> list nat;          (* GetEAllStructuralFeatures() of the class of an object *)
  get : nat -> nat -> value;           (* EGetResolve(feature, false) *)
  model_element : nat -> bool;         (* the object is an EModelElementExt *)
  children : nat -> list nat;          (* EContents() of a model element *)
  label_of : nat -> label;
  object_id : nat -> str;              (* GetEObjectID *)
  manager : option ((nat -> option str) * (str -> option nat));  (* GetID, formatted with %v, and GetEObject of the id manager *)
  all_contents : list nat;             (* getAllContentsResolve(r, false) *)
  other_digit : Z -> bool }.

(** result of a call: a value, a panic, or no result within the fuel *)
Inductive res (A : Type) := Done (x : A) | Panics | Loops.
Arguments Done {A} x. Arguments Panics {A}. Arguments Loops {A}.
Definition rbind {A B} (r : res A) (f : A -> res B) : res B := match r with Done x => f x | Panics => Panics | Loops => Loops end.
Notation "'let!' x ':=' e 'in' f" := (rbind e (fun x => f)) (at level 200, x pattern, right associativity).
Definition of_option {A} (o : option A) : res A := match o with Some x => Done x | None => Panics end.

(** IndexOf *)
Fixpoint index_of (x : nat) (l : list nat) : Z :=
  match l with
  | [] => -1
  | y :: l' => if Nat.eqb x y then 0 else let i := index_of x l' in if i =? -1 then -1 else i + 1
  end.

Section Fragments.
  Context (w : world).

  (** unicode.IsDigit *)
  Definition digit (c : Z) : bool := if c <? 128 then is_digit c else other_digit w c.

  (** eclass_ext.go:138-158: the last feature with that name *)
  Definition feature_named (o : nat) (n : str) : option nat := find (fun f => str_eqb (f_name w f) n) (rev (features w o)).
  (** abstracteobject.go:879-885 *)
  Definition eStructuralFeature (o : nat) (n : str) : res nat := of_option (feature_named o n).

  (** abstracteobject.go:887-913 *)
  Definition plain_for_segment (o : nat) (s : str) : res (option nat) :=
    match s with
    | 64 :: _ =>
        let index := if digit (last s 0) then last_index 46 s else -1 in
        if index =? -1 then
          let! n := of_option (zslice s 1 (zlen s)) in
          let! f := eStructuralFeature o n in
          Done (match get w o f with VSingle x => x | _ => None end)
        else
          let! d := of_option (zslice s (index + 1) (zlen s)) in
          let pos := fst (atoi d) in
          let! n := of_option (zslice s 1 index) in
          let! f := eStructuralFeature o n in
          match get w o f with
          | VMany l => if pos <? zlen l then (let! x := of_option (zget l pos) in Done (Some x)) else Done None
          | _ => Done None
          end
    | _ => Panics
    end.
  (** abstracteobject.go:915-924 *)
  Definition plain_segment (o f x : nat) : res str :=
    let s := 64 :: f_name w f in
    if f_many w f then
      match get w o f with VMany l => Done (s ++ [46] ++ itoa (index_of x l)) | _ => Panics end
    else Done s.

  (** the loops of emodelelement_ext.go: the [count]-th child with the label, counted from 0 *)
  Definition same_label (l : label) (x : nat) : bool :=
    match l, label_of w x with
    | Named n, Named n' | Annotation n, Annotation n' => str_eqb n n'
    | _, _ => false
    end.
  Fixpoint nth_child (l : label) (count : Z) (xs : list nat) : option nat :=
    match xs with
    | [] => None
    | x :: xs' => if same_label l x then (if count =? 0 then Some x else nth_child l (count - 1) xs') else nth_child l count xs'
    end.
  (** number of children with the label before [x] *)
  Fixpoint count_before (l : label) (x : nat) (xs : list nat) : Z :=
    match xs with
    | [] => 0
    | y :: xs' => if Nat.eqb y x then 0 else (if same_label l y then 1 else 0) + count_before l x xs'
    end.

  (** emodelelement_ext.go:43-128 *)
  Definition named_for_segment (o : nat) (s : str) : res (option nat) :=
    let index := last_index 46 s in
    let! r := (if index =? -1 then Done (s, 0)
               else let! name := of_option (zslice s 0 index) in
                    let! d := of_option (zslice s (index + 1) (zlen s)) in
                    let '(i, ok) := atoi d in
                    Done (if ok then (name, i) else (s, 0))) in
    let '(name, count) := r in
    let name := if str_eqb name [37] then [] else path_escape name in
    Done (nth_child (Named name) count (children w o)).
  Definition element_for_segment (o : nat) (s : str) : res (option nat) :=
    match s with
    | [] => plain_for_segment o s
    | 64 :: _ => plain_for_segment o s
    | 37 :: _ =>
        let index := last_index 37 s in
        if index =? 0 then named_for_segment o s
        else
          let! c := of_option (zget s (index + 1)) in  (* line 53: panics when the segment ends with % *)
          let hasCount := c =? 46 in
          if (index =? zlen s - 1) || hasCount then
            let! encoded := of_option (zslice s 1 index) in
            let source := if str_eqb encoded [37] then [] else path_unescape encoded in
            let! count := (if hasCount then let! d := of_option (zslice s (index + 2) (zlen s)) in
                                            let '(i, ok) := atoi d in Done (if ok then i else 0)
                           else Done 0) in
            Done (nth_child (Annotation source) count (children w o))
          else named_for_segment o s
    | _ => named_for_segment o s
    end.
  (** emodelelement_ext.go:130-190 *)
  Definition element_segment (o f x : nat) : res str :=
    match label_of w x with
    | Named n =>
        let count := count_before (Named n) x (children w o) in
        let name := match n with [] => [37] | _ => path_escape n end in
        Done (if count >? 0 then name ++ [46] ++ itoa count else name)
    | Annotation source =>
        let count := count_before (Annotation source) x (children w o) in
        let result := [37] ++ match source with [] => [37] | _ => path_escape source end ++ [37] in
        Done (if count >? 0 then result ++ [46] ++ itoa count else result)
    | Other => plain_segment o f x
    end.

  (** virtual calls *)
  Definition EObjectForFragmentSegment (o : nat) (s : str) : res (option nat) :=
    if model_element w o then element_for_segment o s else plain_for_segment o s.
  Definition EURIFragmentSegment (o f x : nat) : res str :=
    if model_element w o then element_segment o f x else plain_segment o f x.

  (** eresource_impl.go:293-300 *)
  Definition root_segment (o : nat) : str := if zlen (contents w) >? 1 then itoa (index_of o (contents w)) else [].
  (** eresource_impl.go:302-309 *)
  Definition id_for_object (o : nat) : str :=
    match manager w with
    | Some (getID, _) => match getID o with Some id => id | None => object_id w o end
    | None => object_id w o
    end.
  (** eresource_impl.go:311-323 *)
  Definition object_by_id (id : str) : option nat :=
    match manager w with
    | Some (_, getEObject) => getEObject id
    | None => find (fun o => str_eqb id (object_id w o)) (all_contents w)
    end.

  (** the loop of eresource_impl.go:268-277: [id] is the last id computed, [x] the object reached *)
  Fixpoint climb (fuel : nat) (o x : nat) (id : str) (path : list str) : res (bool * nat * str * list str) :=
    match fuel with
    | O => Loops
    | S fuel' =>
        match container w x with
        | None => Done (false, x, id, path)
        | Some c =>
            let id' := id_for_object o in
            let! path' := (match id' with
                           | [] => let! f := of_option (containing w x) in let! s := EURIFragmentSegment c f x in Done (s :: path)
                           | _ => Done path
                           end) in
            if direct w c then Done (true, c, id', path') else climb fuel' o c id' path'
        end
    end.
  (** eresource_impl.go:254-291 *)
  Definition GetURIFragment (fuel : nat) (o : nat) : res str :=
    match object_id w o with
    | _ :: _ => Done (object_id w o)
    | [] =>
        if direct w o then
          match id_for_object o with
          | [] => Done (47 :: root_segment o)
          | id => Done id
          end
        else
          let! r := climb fuel o o [] [] in
          let '(contained, x, id, path) := r in
          if negb contained then Done (lit "/-1")
          else match id with
               | [] => Done (join [47] ([] :: root_segment x :: path))
               | _ => Done id
               end
    end.

  (** eresource_impl.go:338-351 *)
  Definition object_for_root_segment (s : str) : option nat :=
    match s with
    | 63 :: id => object_by_id id
    | _ =>
        let position := match s with [] => 0 | _ => fst (atoi s) end in
        if (0 <=? position) && (position <? zlen (contents w)) then nth_error (contents w) (Z.to_nat position) else None
    end.
  (** eresource_impl.go:325-336 *)
  Fixpoint follow (x : option nat) (path : list str) : res (option nat) :=
    match path, x with
    | [], _ => Done x
    | _, None => Done None
    | s :: path', Some o => let! x' := EObjectForFragmentSegment o s in follow x' path'
    end.
  Definition object_by_path (path : list str) : res (option nat) :=
    match path with
    | [] => Done (object_for_root_segment [])
    | r :: path' => follow (object_for_root_segment r) path'
    end.
  (** eresource_impl.go:237-252 *)
  Definition GetEObject (s : str) : res (option nat) :=
    match s with
    | [] => Done (object_by_id [])
    | 47 :: _ => object_by_path (tl (split 47 s))
    | _ =>
        if last s 0 =? 63 then
          let! p := of_option (zslice s 0 (zlen s - 2)) in
          let index := last_index 63 p in
          if index =? -1 then Done (object_by_id s)
          else let! id := of_option (zslice s 0 index) in Done (object_by_id id)
        else Done (object_by_id s)
    end.

  (** ecoreutils.go:66-94: [visited] holds the objects passed; [Panics] when the ancestor is not found *)
  Fixpoint relative_loop (fuel : nat) (ancestor : option nat) (x : nat) (visited : list nat) (path : list str) : res (nat * list str) :=
    match fuel with
    | O => Loops
    | S fuel' =>
        match container w x with
        | None => Done (x, path)
        | Some c =>
            if existsb (Nat.eqb x) visited then Done (x, path)
            else
              let! f := of_option (containing w x) in
              let! s := EURIFragmentSegment c f x in
              if match ancestor with Some a => Nat.eqb c a | None => false end then Done (c, s :: path)
              else relative_loop fuel' ancestor c (x :: visited) (s :: path)
        end
    end.
  Definition getRelativeURIFragmentPath (fuel : nat) (ancestor : option nat) (x : nat) : res str :=
    if match ancestor with Some a => Nat.eqb x a | None => false end then Done []
    else
      let! r := relative_loop fuel ancestor x [] [] in
      let '(y, path) := r in
      match ancestor with
      | Some a => if Nat.eqb y a then Done (join [47] path) else Panics
      | None => Done (join [47] path)
      end.
  (** ecoreutils.go:96-103: the type assertion on a nil interface panics *)
  Fixpoint get_segments (o : nat) (segments : list str) : res nat :=
    match segments with
    | [] => Done o
    | s :: rest => let! x := EObjectForFragmentSegment o s in
                   match x with Some o' => get_segments o' rest | None => Panics end
    end.
  Definition GetEObjectRelative (root : nat) (path : str) : res nat := get_segments root (split 47 path).
End Fragments.
