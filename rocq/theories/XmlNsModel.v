(** Model of ecore/xmlnamespaces.go, of XMLEncoder.getPrefix and of XMLDecoder.startPrefixMapping.
    Strings are lists of byte codes. *)
From Verif Require Import Base.

Definition str := list nat.
Definition str_eqb (a b : str) : bool := if list_eq_dec Nat.eq_dec a b then true else false.

(** ** ecore/xmlnamespaces.go *)

(** xmlnamespaces.go:14-19; a pair is (prefix, uri) *)
Record xmlns := mkNs {
  namespaces : list (str * str);
  contexts : list Z;
  namespacesSize : Z;
  currentContext : Z }.

(** xmlnamespaces.go:21-26 *)
Definition newXMLNamespaces : xmlns := mkNs [] [] 0 (-1).

(** xmlnamespaces.go:28-35 *)
Definition pushContext (n : xmlns) : option xmlns :=
  let c := currentContext n + 1 in
  if c >=? zlen (contexts n)
  then Some (mkNs (namespaces n) (contexts n ++ [namespacesSize n]) (namespacesSize n) c)
  else let? cs := zset (contexts n) c (namespacesSize n) in
       Some (mkNs (namespaces n) cs (namespacesSize n) c).

(** xmlnamespaces.go:37-42 *)
Definition popContext (n : xmlns) : option (xmlns * list (str * str)) :=
  let? size := zget (contexts n) (currentContext n) in
  let? r := zslice (namespaces n) size (namespacesSize n) in
  Some (mkNs (namespaces n) (contexts n) size (currentContext n - 1), r).

(** xmlnamespaces.go:45-51: scan downwards from [i] while i > contexts[currentContext];
    [Some (Some l)]: found and replaced; [Some None]: not found; [None]: panic *)
Fixpoint declare_scan (fuel : nat) (ns : list (str * str)) (i low : Z) (prefix uri : str)
  : option (option (list (str * str))) :=
  if i >? low
  then match fuel with
       | O => None
       | S fuel' =>
           let? p := zget ns (i - 1) in
           if str_eqb (fst p) prefix
           then let? ns' := zset ns (i - 1) (fst p, uri) in Some (Some ns')
           else declare_scan fuel' ns (i - 1) low prefix uri
       end
  else Some None.

(** xmlnamespaces.go:44-59 *)
Definition declarePrefix (n : xmlns) (prefix uri : str) : option (xmlns * bool) :=
  let? low := zget (contexts n) (currentContext n) in
  let? found := declare_scan (length (namespaces n)) (namespaces n) (namespacesSize n) low prefix uri in
  match found with
  | Some ns => Some (mkNs ns (contexts n) (namespacesSize n) (currentContext n), true)
  | None =>
      let size := namespacesSize n + 1 in
      if size >? zlen (namespaces n)
      then Some (mkNs (namespaces n ++ [(prefix, uri)]) (contexts n) size (currentContext n), false)
      else let? ns := zset (namespaces n) size (prefix, uri) in
           Some (mkNs ns (contexts n) size (currentContext n), false)
  end.

(** xmlnamespaces.go:61-69 and 71-79: first pair, scanning down from [i], whose component matches;
    [None] panic, [Some None] not found *)
Fixpoint lookup_down (fuel : nat) (ns : list (str * str)) (i : Z) (match_ : str * str -> bool)
  : option (option (str * str)) :=
  if i >? 0
  then match fuel with
       | O => None
       | S fuel' =>
           let? p := zget ns (i - 1) in
           if match_ p then Some (Some p) else lookup_down fuel' ns (i - 1) match_
       end
  else Some None.
Definition getPrefix (n : xmlns) (uri : str) : option (option str) :=
  let? r := lookup_down (length (namespaces n)) (namespaces n) (namespacesSize n) (fun p => str_eqb (snd p) uri) in
  Some (option_map fst r).
Definition getURI (n : xmlns) (prefix : str) : option (option str) :=
  let? r := lookup_down (length (namespaces n)) (namespaces n) (namespacesSize n) (fun p => str_eqb (fst p) prefix) in
  Some (option_map snd r).

Inductive nsop := Push | Pop | Declare (prefix uri : str).
Definition ns_step (n : xmlns) (o : nsop) : option xmlns :=
  match o with
  | Push => pushContext n
  | Pop => let? r := popContext n in Some (fst r)
  | Declare p u => let? r := declarePrefix n p u in Some (fst r)
  end.
Fixpoint ns_run (n : xmlns) (ops : list nsop) : option xmlns :=
  match ops with
  | [] => Some n
  | o :: r => let? n' := ns_step n o in ns_run n' r
  end.

(** ** Prefix allocation *)

(** a Go map[string]string *)
Definition smap := str -> option str.
Definition smap_set (m : smap) (k v : str) : smap := fun x => if str_eqb x k then Some v else m x.

(** result of a Go call that may loop forever *)
Inductive result (T : Type) := Done (x : T) | Diverges.
Arguments Done {T} x. Arguments Diverges {T}.

Definition suffix1 : str := [95; 49]%nat.  (* "_1" *)

(** xmlencoder.go:721-725 and xmldecoder.go:285-289.
    [for _, exists = m[p+"_"+index]; exists; { index++ }]: the lookup is the loop's init statement, executed
    once with index 1; if it succeeds the condition never becomes false. *)
Definition disambiguate (m : smap) (prefix : str) : result str :=
  match m (prefix ++ suffix1) with
  | Some _ => Diverges
  | None => Done (prefix ++ suffix1)
  end.

(** packages: identity, nsURI, nsPrefix *)
Record pack := mkP { pid : nat; nsURI : str; nsPrefix : str }.

(** xmlencoder.go:60-64 *)
Record xenc := mkE { packages : nat -> option str; prefixesToURI : smap; uriToPrefixes : str -> list str }.
Definition newEnc : xenc := mkE (fun _ => None) (fun _ => None) (fun _ => []).

Definition underscore : str := [95]%nat.

(** xmlencoder.go:701-733 *)
Definition encGetPrefix (s : xenc) (p : pack) (mustHavePrefix : bool) : result (xenc * str) :=
  match packages s (pid p) with
  | Some x => Done (s, x)
  | None =>
      let remember s x := mkE (fun i => if Nat.eqb i (pid p) then Some x else packages s i) (prefixesToURI s) (uriToPrefixes s) in
      match find (fun x => negb mustHavePrefix || negb (zlen x =? 0)) (uriToPrefixes s (nsURI p)) with
      | Some x => Done (remember s x, x)
      | None =>
          let x := if (zlen (nsPrefix p) =? 0) && mustHavePrefix then underscore else nsPrefix p in
          let chosen :=
            match prefixesToURI s x with
            | Some u => if str_eqb u (nsURI p) then Done x else disambiguate (prefixesToURI s) x
            | None => Done x
            end in
          match chosen with
          | Diverges => Diverges
          | Done x' => Done (remember (mkE (packages s) (smap_set (prefixesToURI s) x' (nsURI p)) (uriToPrefixes s)) x', x')
          end
      end
  end.

Definition xsiNS : str := [120; 115; 105]%nat.  (* "xsi" *)
(** xmlencoder.go:384-385, 477-478; [xsiURI] is a constant *)
Definition declareXsi (xsiURI : str) (s : xenc) : xenc :=
  mkE (packages s) (smap_set (prefixesToURI s) xsiNS xsiURI)
      (fun u => if str_eqb u xsiURI then [xsiNS] else uriToPrefixes s u).

(** xmlencoder.go:735-746, one entry of the document root's prefix map; [pk] is the package registered
    under the namespace URI, if any *)
Definition setPrefixEntry (prefix uri : str) (pk : option pack) (s : xenc) : xenc :=
  mkE (match pk with
       | Some p => fun i => if Nat.eqb i (pid p) then Some prefix else packages s i
       | None => packages s
       end)
      (smap_set (prefixesToURI s) prefix uri)
      (fun u => if str_eqb u uri then uriToPrefixes s u ++ [prefix] else uriToPrefixes s u).

Inductive xop := GetPrefix (p : pack) (must : bool) | DeclareXsi | SetEntry (prefix uri : str) (pk : option pack).
Definition xstep (xsiURI : str) (s : xenc) (o : xop) : result xenc :=
  match o with
  | GetPrefix p must => match encGetPrefix s p must with Done (s', _) => Done s' | Diverges => Diverges end
  | DeclareXsi => Done (declareXsi xsiURI s)
  | SetEntry x u pk => Done (setPrefixEntry x u pk s)
  end.
Fixpoint xrun (xsiURI : str) (s : xenc) (ops : list xop) : result xenc :=
  match ops with
  | [] => Done s
  | o :: r => match xstep xsiURI s o with Done s' => xrun xsiURI s' r | Diverges => Diverges end
  end.

(** xmldecoder.go:282-293, the part about prefixesToURI *)
Definition startPrefixMapping (m : smap) (prefix uri : str) : result smap :=
  match m prefix with
  | Some _ => match disambiguate m prefix with
              | Done x => Done (smap_set m x uri)
              | Diverges => Diverges
              end
  | None => Done (smap_set m prefix uri)
  end.
Fixpoint map_run (m : smap) (decls : list (str * str)) : result smap :=
  match decls with
  | [] => Done m
  | (p, u) :: r => match startPrefixMapping m p u with Done m' => map_run m' r | Diverges => Diverges end
  end.
