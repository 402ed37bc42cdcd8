(** Specification of the binary codec: when a decoded graph is a copy of the encoded one, and for which
    graphs and metamodels this is claimed.  Shares with BinaryModel only the types of objects, values
    and features. *)
From Verif Require Import Base Chars BinaryModel.

Section Spec.
  Context {D DT U I : Type} (E : env D DT U).
  Context (heap : nat -> object D U I) (with_ids : bool).

  (** [table]: the encoded objects in order, each with the kind of reference through which it was first
      met.  Object number [k] of the decoded graph is the copy of the [k]-th one. *)
  Definition ref_copy (table : list (nat * check)) (r r' : option nat) : Prop :=
    match r, r' with
    | None, None => True
    | Some x, Some k => exists chk, nth_error table k = Some (x, chk)
    | _, _ => False
    end.

  (** equal values; references to copies, in the same order *)
  Definition value_copy (table : list (nat * check)) (v v' : value D) : Prop :=
    match v, v' with
    | VPrim p, VPrim p' => p = p'
    | VData a, VData a' => a = a'
    | VDatas l, VDatas l' => l = l'
    | VObj r, VObj r' => ref_copy table r r'
    | VObjs l, VObjs l' => Forall2 (ref_copy table) l l'
    | _, _ => False
    end.

  (** features that belong to the document: neither transient nor, for an object that is not one of the
      contents of the resource, its container *)
  Definition persistent (chk : check) (f : feature DT) : Prop :=
    ftransient f = false /\ (fkind f = bfkObjectContainerProxy -> chk = checkContainer).

  (** [u] is the URI of an object that lives outside of the document: the URI of a proxy, or the URI of
      its resource with its fragment.  Only references that resolve proxies may leave the document. *)
  Definition outside (chk : check) (o : object D U I) (u : U) : Prop :=
    match chk with
    | checkNothing | checkContainer => False
    | checkDirectResource =>
        oproxy o = Some u
        \/ (oproxy o = None /\ exists r f, odirect o = Some (Some r, f) /\ u = e_with_fragment E r f)
    | checkResource =>
        oproxy o = Some u
        \/ (oproxy o = None /\ exists r f, oforeign o = Some (Some r, f) /\ u = e_with_fragment E r f)
    end.

  (** the decoded object [o'] is a copy of [x], met through [chk] *)
  Definition object_copy (table : list (nat * check)) (x : nat) (chk : check)
      (o' : dobject D U I) : Prop :=
    let o := heap x in
    dclass o' = oclass o /\
    ((exists u, outside chk o u /\ dproxy o' = Some u /\ did o' = None /\ dvalues o' = [])
     \/
     ((forall u, ~ outside chk o u) /\ dproxy o' = None /\ did o' = (if with_ids then oid o else None) /\
      NoDup (map fst (dvalues o')) /\
      (* what is set in the copy is set in the original, and conversely *)
      (forall i v', In (i, v') (dvalues o') ->
        exists f v, nth_error (e_cfeatures E (oclass o)) i = Some f /\ persistent chk f /\
                    ovalue o i = Some v /\ value_copy table v v') /\
      (forall i f v, nth_error (e_cfeatures E (oclass o)) i = Some f -> persistent chk f -> ovalue o i = Some v ->
        exists v', In (i, v') (dvalues o') /\ value_copy table v v'))).

  (** the decoded objects and contents are a copy of the contents and of what they reach *)
  Definition graph_copy (contents : list nat) (contents' : list (option nat))
      (objects' : list (dobject D U I)) : Prop :=
    exists table,
      NoDup (map fst table) /\ length table = length objects' /\
      Forall2 (ref_copy table) (map Some contents) contents' /\
      (forall x chk u, In x contents -> In (x, chk) table -> ~ outside chk (heap x) u) /\
      forall k x chk o', nth_error table k = Some (x, chk) -> nth_error objects' k = Some o' ->
        object_copy table x chk o'.

  (** *** the graphs considered *)
  Definition uri_ok (u : U) : Prop := e_unrel E (e_rel E u) = Some u.

  (** values of the type of the feature *)
  Definition fits (f : feature DT) (v : value D) : Prop :=
    match fkind f, v with
    | bfkPrim bfkFloat64, VPrim (PF64 _) | bfkPrim bfkFloat32, VPrim (PF32 _)
    | bfkPrim bfkBool, VPrim (PBool _) | bfkPrim bfkString, VPrim (PStr _)
    | bfkPrim bfkByteArray, VPrim (PBytes _) => True
    | bfkPrim bfkDate, VPrim (PDate _ zone) => zone = 0              (* dates in UTC *)
    | bfkPrim (bfkNum k), VPrim (PNum k' _) => k = k'
    | bfkData, VData a | bfkEnum, VData a =>
        e_create E (fdatatype f) (e_conv E (fdatatype f) a) = a      (* the conversion is faithful: C36 *)
    | bfkDataList, VDatas l =>
        (forall a, In a l -> e_create E (fdatatype f) (e_conv E (fdatatype f) a) = a)
        /\ (funique f = true -> NoDup l)
    | (bfkObjectContainerProxy | bfkObject | bfkObjectProxy | bfkObjectContainment | bfkObjectContainmentProxy), VObj (Some _) =>
        fopposite f = false
    | (bfkObjectList | bfkObjectListProxy | bfkObjectContainmentList | bfkObjectContainmentListProxy), VObjs l =>
        fopposite f = false /\ (funique f = true -> NoDup l)
    | bfkObjectContainer, _ => ftransient f = true
    | _, _ => False
    end.

  Definition refs (v : value D) : list nat :=
    match v with VObj r => match r with Some x => [x] | None => [] end | VObjs l => somes l | _ => [] end.

  Definition is_child (x i z : nat) : Prop :=
    exists f v, nth_error (e_cfeatures E (oclass (heap x))) i = Some f /\
      (fkind f = bfkObjectContainment \/ fkind f = bfkObjectContainmentProxy
       \/ fkind f = bfkObjectContainmentList \/ fkind f = bfkObjectContainmentListProxy) /\
      ovalue (heap x) i = Some v /\ In z (refs v).

  (** [all]: the objects of the graph *)
  Record good (all contents : list nat) : Prop := {
    g_contents : incl contents all;
    g_contents_once : NoDup contents;
    g_closed : forall x i v z, In x all -> ovalue (heap x) i = Some v -> In z (refs v) -> In z all;
    (* classes can be found by the names of their package and their own *)
    g_class : forall x, In x all -> let c := oclass (heap x) in
      In (e_cname E c, Some c) (e_classifiers E (e_cpackage E c))
      /\ NoDup (map fst (e_classifiers E (e_cpackage E c)));
    g_package : forall x, In x all -> let p := e_cpackage E (oclass (heap x)) in
      e_get_package E (e_nsuri E p) (e_puri E p) = Some p
      /\ forall u, e_puri E p = Some u -> uri_ok (e_trim E u);
    (* features have distinct, non-empty names *)
    g_names : forall x, In x all -> let fs := e_cfeatures E (oclass (heap x)) in
      NoDup (map fname fs) /\ forall f, In f fs -> fname f <> [];
    (* URIs are determined by their text and survive relativization *)
    g_uri_text : forall u u', e_ustr E u = e_ustr E u' -> u = u';
    g_uri_fragment : forall u, e_with_fragment E (e_trim E u) (e_fragment E u) = u;
    g_proxy_uri : forall x u, In x all -> oproxy (heap x) = Some u -> uri_ok (e_trim E u);
    g_direct_uri : forall x u f, In x all -> odirect (heap x) = Some (u, f) -> exists r, u = Some r /\ uri_ok r;
    g_foreign_uri : forall x u f, In x all -> oforeign (heap x) = Some (u, f) -> exists r, u = Some r /\ uri_ok r;
    (* values *)
    g_fits : forall x i v f, In x all -> ovalue (heap x) i = Some v ->
      nth_error (e_cfeatures E (oclass (heap x))) i = Some f -> fits f v;
    (* the contents are in the document and have no container *)
    g_roots : forall x, In x contents -> oproxy (heap x) = None /\ oforeign (heap x) = None
      /\ (forall y i, In y all -> ~ is_child y i x)
      /\ forall i f, nth_error (e_cfeatures E (oclass (heap x))) i = Some f ->
           fkind f = bfkObjectContainerProxy -> ovalue (heap x) i = None;
    (* an object has one container *)
    g_contained_once : forall x i y j z, In x all -> In y all -> is_child x i z -> is_child y j z -> x = y /\ i = j;
    g_equality : forall a b, e_d_eqb E a b = true <-> a = b }.
End Spec.
