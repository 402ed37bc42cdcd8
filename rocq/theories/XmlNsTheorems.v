(** Property theorems: XML namespaces (C33, C34). *)
From Verif Require Import Base XmlNsModel XmlNsSpec XmlNsProofs.

Definition sa : str := [97]%nat.  Definition sb : str := [98]%nat.  Definition sc : str := [99]%nat.
Definition ua : str := [117; 97]%nat.  Definition ub : str := [117; 98]%nat.  Definition uc : str := [117; 99]%nat.

(** C33, proved part: as long as a prefix is never newly declared after some recorded declaration went out of
    scope, nothing panics and lookups give the innermost declaration. Missing: the other histories, see below. *)
Theorem C33_lookup_innermost_partial : forall ops s,
  never_shrunk [] 0 ops -> spec_ns_run [] ops = Some s ->
  exists n, ns_run newXMLNamespaces ops = Some n /\
    (forall p, getURI n p = Some (spec_uri s p)) /\ (forall u, getPrefix n u = Some (spec_prefix s u)).
Proof. exact scopes_correct. Qed.
Print Assumptions C33_lookup_innermost_partial.

Example C33_lookup_example :
  let ops := [Push; Declare sa ua; Push; Declare sa ub; Declare sb uc; Declare sa uc; Pop] in
  never_shrunk [] 0 ops /\ spec_ns_run [] ops = Some [[(sa, ua)]] /\ spec_uri [[(sa, ua)]] sa = Some ua.
Proof. vm_compute. repeat split; intros; congruence. Qed.

(** C33, proved part: leaving child elements restores what was in force before them *)
Theorem C33_leaving_restores_partial : forall a c s,
  spec_ns_run [] a = Some s -> content c -> never_shrunk [] 0 (a ++ c) ->
  exists n n', ns_run newXMLNamespaces a = Some n /\ ns_run n c = Some n' /\
    (forall p, getURI n' p = getURI n p) /\ (forall u, getPrefix n' u = getPrefix n u).
Proof. exact leaving_restores. Qed.
Print Assumptions C33_leaving_restores_partial.

Example C33_leaving_example : let a := [Push; Declare sa ua] in let c := [Push; Declare sa ub; Push; Declare sb ub; Pop; Pop] in
  spec_ns_run [] a = Some [[(sa, ua)]] /\ content c /\ never_shrunk [] 0 (a ++ c).
Proof.
  cbv zeta. split; [reflexivity|]. split.
  - apply (content_child [Declare sa ub] [Push; Declare sb ub; Pop] []); [| |constructor].
    + constructor; [eauto|constructor].
    + apply (content_child [Declare sb ub] [] []); [|constructor|constructor]. constructor; [eauto|constructor].
  - vm_compute. repeat split; intros; congruence.
Qed.

(** C33 fails: two sibling elements that each declare a prefix of their own make the parser panic;
    with more declarations, a lookup answers with a declaration that is no longer in scope. *)
Theorem C33_lookup_innermost_refuted :
  (exists ops s, spec_ns_run [] ops = Some s /\ ns_run newXMLNamespaces ops = None) /\
  (exists ops s n p u, spec_ns_run [] ops = Some s /\ ns_run newXMLNamespaces ops = Some n /\
     spec_uri s p = None /\ getURI n p = Some (Some u)).
Proof.
  split.
  - exists [Push; Declare sa ua; Push; Declare sb ub; Pop; Push; Declare sc uc]. eexists. vm_compute. split; reflexivity.
  - exists [Push; Declare sa ua; Push; Declare sb ub; Declare ub ub; Pop; Push; Declare sc uc]. eexists. eexists.
    exists sb, ub. vm_compute. repeat split.
Qed.
Print Assumptions C33_lookup_innermost_refuted.

(** the panic is systematic: in every state with exactly one declaration out of scope *)
Theorem C33_declaration_panics_refuted : forall n sc s p u x,
  Rel n (sc :: s) -> namespaces n = rev (concat (sc :: s)) ++ [x] ->
  replace_prefix p u sc = None -> declarePrefix n p u = None.
Proof. exact declare_panics. Qed.
Print Assumptions C33_declaration_panics_refuted.

Example C33_panics_example : let n := mkNs [(sa, ua); (sb, ub)] [0; 1] 1 0 in
  ns_run newXMLNamespaces [Push; Declare sa ua; Push; Declare sb ub; Pop] = Some n /\
  namespaces n = rev (concat [[(sa, ua)]]) ++ [(sb, ub)] /\ replace_prefix sc uc [(sa, ua)] = None.
Proof. vm_compute. repeat split. Qed.

(** C33 fails for URIs: the prefix found for a URI may be shadowed, that is, denote another URI *)
Theorem C33_prefix_for_uri_refuted : exists ops s n u p v,
  never_shrunk [] 0 ops /\ spec_ns_run [] ops = Some s /\ ns_run newXMLNamespaces ops = Some n /\
  getPrefix n u = Some (Some p) /\ getURI n p = Some (Some v) /\ v <> u.
Proof.
  exists [Push; Declare sa ua; Push; Declare sa ub]. eexists. eexists. exists ua, sa, ub.
  split; [vm_compute; repeat split; intros; congruence|]. vm_compute. repeat split. discriminate.
Qed.
Print Assumptions C33_prefix_for_uri_refuted.

(** C34, proved part: if no declaration rebinds a prefix, then every package that got a prefix has one that
    denotes its own namespace, and two packages with different namespaces never share a prefix. *)
Theorem C34_prefixes_denote_namespaces_partial : forall xsiURI uri_of ops s,
  xhistory_ok xsiURI newEnc uri_of ops -> xrun xsiURI newEnc ops = Done s ->
  prefixes_sound s uri_of /\
  (forall i j x, packages s i = Some x -> packages s j = Some x -> uri_of i = uri_of j).
Proof.
  intros xsiURI uri_of ops s H E. pose proof (enc_sound _ _ _ _ H E) as K. split; [exact K|].
  intros i j x H1 H2. eapply sound_no_alias; eauto.
Qed.
Print Assumptions C34_prefixes_denote_namespaces_partial.

(** C34: the call answers with the prefix it records, and never changes an earlier answer *)
Theorem C34_prefixes_stable : forall xsiURI uri_of ops s p must s' x,
  xhistory_ok xsiURI newEnc uri_of ops -> xrun xsiURI newEnc ops = Done s -> nsURI p = uri_of (pid p) ->
  encGetPrefix s p must = Done (s', x) ->
  packages s' (pid p) = Some x /\ prefixesToURI s' x = Some (nsURI p) /\
  (forall i y, packages s i = Some y -> packages s' i = Some y) /\
  (forall y u, prefixesToURI s y = Some u -> prefixesToURI s' y = Some u).
Proof.
  intros xsiURI uri_of ops s p must s' x H E Hn G.
  pose proof (enc_run_inv _ _ _ _ _ (enc_init uri_of) H E) as K.
  destruct (enc_getPrefix_inv _ _ _ _ _ _ K Hn G) as ([K1 _] & K2 & K3 & K4).
  repeat split; auto. rewrite Hn. now apply K1.
Qed.
Print Assumptions C34_prefixes_stable.

Definition pk1 := mkP 1 ua sa.  Definition pk2 := mkP 2 ub sa.  Definition pk3 := mkP 3 uc sa.
Definition uris (i : nat) : str := match i with 1 => ua | 2 => ub | _ => uc end%nat.

Example C34_prefixes_example :
  let ops := [GetPrefix pk1 false; DeclareXsi; GetPrefix pk2 true; GetPrefix pk1 true] in
  xhistory_ok uc newEnc uris ops /\
  exists s, xrun uc newEnc ops = Done s /\ packages s 1 = Some sa /\ packages s 2 = Some (sa ++ suffix1).
Proof.
  cbv zeta. split.
  - vm_compute. repeat split; intros; congruence.
  - eexists. split; [reflexivity|]. split; vm_compute; reflexivity.
Qed.

(** C34 fails: three packages with the same nsPrefix and different namespaces make the writer loop forever *)
Theorem C34_terminates_refuted : exists p1 p2 p3,
  nsURI p1 <> nsURI p2 /\ nsURI p1 <> nsURI p3 /\ nsURI p2 <> nsURI p3 /\
  xrun ua newEnc [GetPrefix p1 false; GetPrefix p2 false; GetPrefix p3 false] = Diverges.
Proof. exists pk1, pk2, pk3. repeat split; vm_compute; congruence. Qed.
Print Assumptions C34_terminates_refuted.

(** exactly when it loops *)
Theorem C34_terminates_partial : forall s p must, encGetPrefix s p must = Diverges <->
  packages s (pid p) = None /\
  find (fun x => negb must || negb (zlen x =? 0)) (uriToPrefixes s (nsURI p)) = None /\
  let x := if (zlen (nsPrefix p) =? 0) && must then underscore else nsPrefix p in
  exists u w, prefixesToURI s x = Some u /\ u <> nsURI p /\ prefixesToURI s (x ++ suffix1) = Some w.
Proof. exact enc_diverges_iff. Qed.
Print Assumptions C34_terminates_partial.

Example C34_terminates_example : exists s, xrun ua newEnc [GetPrefix pk1 false; GetPrefix pk2 false] = Done s /\
  encGetPrefix s pk3 false = Diverges /\ exists r, encGetPrefix s (mkP 4 uc sb) false = Done r.
Proof. eexists. split; [reflexivity|]. split; [reflexivity|]. eexists. reflexivity. Qed.

(** C34 fails: a package whose prefix is "xsi" ends up sharing it with the schema-instance namespace *)
Theorem C34_xsi_refuted : exists p xsiURI s x, nsURI p <> xsiURI /\
  xrun xsiURI newEnc [GetPrefix p false; DeclareXsi] = Done s /\
  packages s (pid p) = Some x /\ prefixesToURI s x = Some xsiURI.
Proof.
  exists (mkP 1 ua xsiNS), ub. eexists. exists xsiNS. split; [discriminate|]. split; [reflexivity|].
  vm_compute. split; reflexivity.
Qed.
Print Assumptions C34_xsi_refuted.

(** C34 fails: asked for a non-empty prefix, the writer may answer with a cached empty one *)
Theorem C34_must_have_prefix_refuted : exists p s s', encGetPrefix newEnc p false = Done (s, []) /\
  encGetPrefix s p true = Done (s', []).
Proof. exists (mkP 1 ua []). eexists. eexists. split; reflexivity. Qed.
Print Assumptions C34_must_have_prefix_refuted.

(** Reading: a document that declares one prefix three times, at any places and for any URIs (even the same),
    makes the reader loop forever. *)
Theorem C34_reader_terminates_refuted : forall m d1 d2 d3 d4 p u1 u2 u3,
  map_run m (d1 ++ (p, u1) :: d2 ++ (p, u2) :: d3 ++ (p, u3) :: d4) = Diverges.
Proof. exact three_declarations_diverge. Qed.
Print Assumptions C34_reader_terminates_refuted.

Example C34_reader_two_declarations : exists m, map_run (fun _ => None) [(sa, ua); (sb, ub); (sa, uc)] = Done m /\
  m sa = Some ua /\ m (sa ++ suffix1) = Some uc.
Proof. eexists. split; [reflexivity|]. vm_compute. split; reflexivity. Qed.
