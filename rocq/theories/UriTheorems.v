(** Theorems about paths, URIs and the URI converter. *)
From Coq Require Import Relations String.
From Verif Require Import Base UriModel UriSpec UriProofs UriProofs2 UriProofs3 UriProofs4 UriProofs5.
Open Scope Z_scope.

(** * C13: normalisation is canonical *)

(** normalize never panics and yields the canonical form: "." and "x/.." segments are removed until none is left *)
Theorem normalize_yields_canonical_path : forall p, no_nul p -> exists q, normalize p = Some q /\ canonical p q.
Proof. exact normalize_canonical. Qed.
Print Assumptions normalize_yields_canonical_path.

(** the order of the removals does not matter *)
Theorem canonical_path_is_unique : forall p q1 q2, canonical p q1 -> canonical p q2 -> q1 = q2.
Proof. exact canonical_unique. Qed.
Print Assumptions canonical_path_is_unique.

Theorem normalize_twice_is_once : forall p q, no_nul p -> normalize p = Some q -> normalize q = Some q.
Proof. exact normalize_idempotent. Qed.
Print Assumptions normalize_twice_is_once.

Example a_path : normalize (lit "/a/./b/../../c//d:e/..") = Some (lit "/c/") /\ normalize (lit "a/../b:c/d") = Some (lit "./b:c/d") /\ no_nul (lit "a/../b:c/d").
Proof. split; [reflexivity|]. split; [reflexivity|]. intros H. vm_compute in H. intuition discriminate. Qed.
Example a_reduction : removes (segments (lit "a/../b/c")) [mkSeg 2 (lit "b") true; mkSeg 3 (lit "c") false].
Proof. apply (remove_parent [] (mkSeg 0 (lit "a") true) (mkSeg 1 (lit "..") true)); try reflexivity; discriminate. Qed.

(** without the hypothesis on NUL, the content of a segment is lost *)
Example nul_cuts_segments : normalize (lit "/./a" ++ [nul] ++ lit "b") = Some (lit "/a/").
Proof. reflexivity. Qed.

(** * C14: Relativize and Resolve *)
Definition no_cache : cache := fun _ => None.
Definition web (host port path : string) : uri :=
  match newURIFromComponents no_cache (lit "http") [] [] (lit host) (lit port) (lit path) [] [] with Some u => u | None => mkURI [] [] [] [] [] [] [] [] [] end.

(** Relativize to the same URI gives the empty URI, which Resolve does not resolve *)
Theorem relativize_same_refuted : exists base u r v,
  relativize no_cache base u = Some r /\ resolve no_cache base r = Some v /\ ~ same_components v u /\ base = u /\ u_path u <> [].
Proof.
  exists (web "h" "" "/a"), (web "h" "" "/a"). do 2 eexists. split; [vm_compute; reflexivity|]. split; [vm_compute; reflexivity|].
  split; [|split; [reflexivity|discriminate]]. intros (E & _). discriminate.
Qed.
Print Assumptions relativize_same_refuted.

(** the base is a document of the directory u: the result is again the empty URI *)
Theorem relativize_directory_refuted : exists base u r v,
  relativize no_cache base u = Some r /\ resolve no_cache base r = Some v /\ ~ same_components v u /\ u_path base = lit "/d/x" /\ u_path u = lit "/d/".
Proof.
  exists (web "h" "" "/d/x"), (web "h" "" "/d/"). do 2 eexists. split; [vm_compute; reflexivity|]. split; [vm_compute; reflexivity|].
  split; [|split; reflexivity]. intros (E & _). discriminate.
Qed.
Print Assumptions relativize_directory_refuted.

(** Authority looks for the host in the whole text, and finds it in the scheme: the ports are not compared *)
Theorem relativize_port_refuted : exists base u r v,
  relativize no_cache base u = Some r /\ resolve no_cache base r = Some v /\ u_port u = lit "81" /\ u_port v = lit "80" /\ authority u = Some (lit "http").
Proof.
  exists (web "h" "80" "/a/b"), (web "h" "81" "/a/c"). do 2 eexists. split; [vm_compute; reflexivity|]. split; [vm_compute; reflexivity|].
  repeat split.
Qed.
Print Assumptions relativize_port_refuted.

(** Authority panics when the host occurs before the user name *)
Theorem authority_panics_refuted : exists u, authority u = None /\ u_raw u = lit "http://u@h/".
Proof. exists (mkURI (lit "http") (lit "u") [] (lit "h") [] (lit "/") [] [] (lit "http://u@h/")). split; reflexivity. Qed.
Print Assumptions authority_panics_refuted.

(** the base is not normalised: Resolve does not start from the directory which Relativize used *)
Theorem relativize_unnormalised_refuted : exists base u r v,
  relativize no_cache base u = Some r /\ resolve no_cache base r = Some v /\ u_path u = lit "/a/y" /\ u_path v = lit "/a/b/y" /\ u_path base = lit "/a/b/..".
Proof.
  exists (web "h" "" "/a/b/.."), (web "h" "" "/a/y"). do 2 eexists. split; [vm_compute; reflexivity|]. split; [vm_compute; reflexivity|].
  repeat split.
Qed.
Print Assumptions relativize_unnormalised_refuted.

(** * C66: Relativize is inverted by Resolve when the paths are normalised and the result is not empty *)
Theorem resolve_inverts_relativize : forall k k' base u r,
  u_scheme u <> [] -> same_base base u -> normal_path (u_path base) -> normal_path (u_path u) -> u_path base <> [] -> u_path u <> [] ->
  (forall d rest, u_path u = d ++ rest -> unambiguous k [] [] [] [] [] rest (u_query u) (u_fragment u)) ->
  unambiguous k' (u_scheme u) (u_username u) (u_password u) (u_host u) (u_port u) (u_path u) (u_query u) (u_fragment u) ->
  relativize k base u = Some r -> u_path r <> [] ->
  exists v, resolve k' base r = Some v /\ same_components v u.
Proof. exact relativize_resolve. Qed.
Print Assumptions resolve_inverts_relativize.

Example a_relative_uri : exists r v, relativize no_cache (web "host" "80" "/a/b/c") (web "host" "80" "/a/b/d/e") = Some r /\ u_raw r = lit "d/e" /\
  resolve no_cache (web "host" "80" "/a/b/c") r = Some v /\ u_raw v = lit "http://host:80/a/b/d/e".
Proof. do 2 eexists. split; [vm_compute; reflexivity|]. split; [reflexivity|]. split; vm_compute; reflexivity. Qed.
Example its_hypotheses : let base := web "host" "80" "/a/b/c" in let u := web "host" "80" "/a/b/d/e" in
  u_scheme u <> [] /\ same_base base u /\ normal_path (u_path base) /\ normal_path (u_path u) /\
  (forall d rest, u_path u = d ++ rest -> unambiguous no_cache [] [] [] [] [] rest (u_query u) (u_fragment u)).
Proof.
  cbv zeta. split; [discriminate|]. split; [vm_compute; auto 10|].
  split; [split; [intros H; vm_compute in H; intuition discriminate|reflexivity]|].
  split; [split; [intros H; vm_compute in H; intuition discriminate|reflexivity]|]. intros; exact Logic.I.
Qed.

(** the cache is keyed by the text alone: after ParseURI("c:d"), a relative path "c:d" is a URI with scheme "c" *)
Theorem cache_confuses_components_refuted : exists k v, own_text k /\
  newURIFromComponents k [] [] [] [] [] (lit "c:d") [] [] = Some v /\ u_scheme v = lit "c" /\ u_path v = lit "d".
Proof.
  exists (fun t => if str_eqb t (lit "c:d") then Some (mkURI (lit "c") [] [] [] [] (lit "d") [] [] (lit "c:d")) else None). eexists.
  split; [|split; [vm_compute; reflexivity|split; reflexivity]].
  intros t u H. cbv beta in H. destruct (str_eqb t (lit "c:d")) eqn:E; [|discriminate]. apply str_eqb_eq in E. injection H as <-. auto.
Qed.
Print Assumptions cache_confuses_components_refuted.

(** * C68: a URI built from components has these components *)
Theorem components_are_kept : forall k scheme username password host port path query fragment,
  unambiguous k scheme username password host port path query fragment ->
  exists v, newURIFromComponents k scheme username password host port path query fragment = Some v /\
    same_components v (mkURI scheme username password host port path query fragment []).
Proof. exact new_components. Qed.
Print Assumptions components_are_kept.
Example a_full_uri : exists v, newURIFromComponents no_cache (lit "ftp") (lit "me") (lit "pw") (lit "h") (lit "21") (lit "/p") (lit "q") (lit "f") = Some v /\ u_raw v = lit "ftp://me:pw@h:21/p?q#f" /\ u_password v = lit "pw".
Proof. eexists. split; [vm_compute; reflexivity|split; reflexivity]. Qed.

(** * C44: the converter *)
Definition cyclic_map : list (uri * uri) :=
  let a := mkURI (lit "a") [] [] [] [] (lit "/") [] [] (lit "a:/") in let b := mkURI (lit "b") [] [] [] [] (lit "/") [] [] (lit "b:/") in [(a, b); (b, a)].
Theorem converter_cycle_refuted : exists m u, forall fuel, convert fuel (fun _ => no_cache) (fun _ => m) u = None.
Proof.
  exists cyclic_map, (mkURI (lit "a") [] [] [] [] (lit "/") [] [] (lit "a:/")).
  intros fuel. enough (convert fuel (fun _ => no_cache) (fun _ => cyclic_map) (mkURI (lit "a") [] [] [] [] (lit "/") [] [] (lit "a:/")) = None /\
    convert fuel (fun _ => no_cache) (fun _ => cyclic_map) (mkURI (lit "b") [] [] [] [] (lit "/") [] [] (lit "b:/")) = None) by tauto.
  induction fuel as [|fuel [IHa IHb]]; [split; reflexivity|]. split; cbn [convert].
  - change (getURIFromMap no_cache cyclic_map (mkURI (lit "a") [] [] [] [] (lit "/") [] [] (lit "a:/"))) with (Some (mkURI (lit "b") [] [] [] [] (lit "/") [] [] (lit "b:/"))). exact IHb.
  - change (getURIFromMap no_cache cyclic_map (mkURI (lit "b") [] [] [] [] (lit "/") [] [] (lit "b:/"))) with (Some (mkURI (lit "a") [] [] [] [] (lit "/") [] [] (lit "a:/"))). exact IHa.
Qed.
Print Assumptions converter_cycle_refuted.

(** a mapping to itself may come first and hide another one *)
Theorem converter_unfinished_refuted : exists m u v old, convert 1 (fun _ => no_cache) (fun _ => m) u = Some v /\ In old (map fst m) /\ applies v old /\
  exists w, convert 2 (fun _ => no_cache) (fun _ => rev m) u = Some w /\ ~ same_components v w.
Proof.
  set (a := mkURI (lit "a") [] [] [] [] (lit "/") [] [] (lit "a:/")). set (b := mkURI (lit "b") [] [] [] [] (lit "/") [] [] (lit "b:/")).
  set (c := mkURI (lit "a") [] [] [] [] (lit "/x") [] [] (lit "a:/x")).
  exists [(c, c); (a, b)], c, c, a. split; [reflexivity|]. split; [cbn; auto|]. split; [split; [cbn; unfold same_base; auto 10|exists (lit "x"); reflexivity]|].
  exists (mkURI (lit "b") [] [] [] [] (lit "/x") [] [] (lit "b:/x")). split; [reflexivity|]. intros (E & _). discriminate.
Qed.
Print Assumptions converter_unfinished_refuted.

(** * C67: the converter terminates and finishes when every mapping leads to a scheme of lower rank *)
Theorem converter_finishes : forall (rank : str -> nat) m ks orders,
  (forall n x, In x (orders n) <-> In x m) -> clear_caches ks m ->
  (forall old new, In (old, new) m -> (rank (u_scheme new) < rank (u_scheme old))%nat /\ u_scheme new <> [] /\ ~ In colon (u_scheme new)) ->
  forall fuel u, named u -> (rank (u_scheme u) < fuel)%nat ->
  exists v, convert fuel ks orders u = Some v /\ clos_refl_trans_1n _ (maps_to m) u v /\ forall old new, In (old, new) m -> ~ applies v old.
Proof. exact convert_terminates. Qed.
Print Assumptions converter_finishes.

Example a_conversion :
  let platform := mkURI (lit "platform") [] [] [] [] (lit "/plugin/") [] [] (lit "platform:/plugin/") in
  let plugin := mkURI (lit "plugin") [] [] [] [] (lit "/") [] [] (lit "plugin:/") in
  let file := mkURI (lit "file") [] [] [] [] (lit "/usr/lib/") [] [] (lit "file:/usr/lib/") in
  let m := [(plugin, file); (platform, plugin)] in
  let rank s := if str_eqb s (lit "platform") then 2%nat else if str_eqb s (lit "plugin") then 1%nat else 0%nat in
  clear_caches (fun _ => no_cache) m /\
  (forall old new, In (old, new) m -> (rank (u_scheme new) < rank (u_scheme old))%nat /\ u_scheme new <> [] /\ ~ In colon (u_scheme new)) /\
  option_map u_raw (convert 3 (fun _ => no_cache) (fun _ => m) (mkURI (lit "platform") [] [] [] [] (lit "/plugin/x/y") [] [] (lit "platform:/plugin/x/y"))) = Some (lit "file:/usr/lib/x/y").
Proof.
  cbv zeta. split; [|split; [|reflexivity]].
  - intros n. split; [intros t u H; discriminate|]. intros; exact Logic.I.
  - intros old new [H|[H|[]]]; injection H as <- <-; (split; [vm_compute; lia|]); (split; [discriminate|]); intros I; vm_compute in I; intuition discriminate.
Qed.
