(** Proofs about URIs. *)
From Coq Require Import Relations.
From Verif Require Import Base UriModel UriSpec UriProofs UriProofs2 UriProofs3 UriProofs4.
Open Scope Z_scope.

(** ** URIs built from components *)
Definition laid (b : builder) (env : nat -> str) : Prop :=
  forall c, exists pre post, b_text b = pre ++ env c ++ post /\ b_index b c = (zlen pre, zlen pre + zlen (env c)).
Definition put (env : nat -> str) (c : nat) (s : str) : nat -> str := fun n => if Nat.eqb n c then s else env n.

Lemma laid_string : forall b env s, laid b env -> laid (write_string s b) env.
Proof. intros b env s L c. destruct (L c) as (pre & post & E1 & E2). exists pre, (post ++ s). cbn. rewrite E1, <- !app_assoc. auto. Qed.
Lemma laid_component : forall b env c s, laid b env -> laid (write_component c s b) (put env c s).
Proof.
  intros b env c s L n. cbn. unfold put. destruct (Nat.eqb_spec n c).
  - exists (b_text b), []. rewrite app_nil_r. auto.
  - destruct (L n) as (pre & post & E1 & E2). exists pre, (post ++ s). rewrite E1, <- !app_assoc. auto.
Qed.

Lemma nonempty_false : forall s, nonempty s = false -> s = [].
Proof. intros s. unfold nonempty. destruct (Z.eqb_spec (zlen s) 0) as [E|E]; [|discriminate]. intros _. destruct s; auto. rewrite zlen_cons in E. pose proof (zlen_nonneg s). lia. Qed.

Definition comp (scheme username password host port path query fragment : str) (c : nat) : str :=
  match c with 0 => scheme | 1 => username | 2 => password | 3 => host | 4 => port | 5 => path | 6 => query | 7 => fragment | _ => [] end%nat.

Lemma laid_ext : forall b env env', (forall c, env c = env' c) -> laid b env -> laid b env'.
Proof. intros b env env' E L c. rewrite <- E. apply L. Qed.

Lemma build_laid : forall scheme username password host port path query fragment,
  laid (build scheme username password host port path query fragment) (comp scheme username password host port path query fragment).
Proof.
  intros. unfold build.
  assert (B0 : laid (mkB [] (fun _ => (0, 0))) (fun _ => [])). { intros c. exists [], []. auto. }
  set (b0 := mkB [] (fun _ => (0, 0))) in *.
  set (b1 := if nonempty scheme then write_string [colon] (write_component 0 scheme b0) else b0).
  assert (B1 : laid b1 (put (fun _ => []) 0 scheme)).
  { unfold b1. destruct (nonempty scheme) eqn:N; [apply laid_string; apply laid_component; auto|].
    apply nonempty_false in N. subst scheme. apply laid_ext with (env := fun _ => []); auto. intros c. unfold put. destruct (Nat.eqb c 0); auto. }
  clearbody b1.
  set (b2 := if nonempty username || nonempty password || nonempty host || nonempty port then _ else b1).
  assert (B2 : laid b2 (put (put (put (put (put (fun _ => []) 0 scheme) 1 username) 2 password) 3 host) 4 port)).
  { unfold b2. clear b2. destruct (nonempty username || nonempty password || nonempty host || nonempty port) eqn:N.
    - set (b3 := if nonempty username || nonempty password then _ else _).
      assert (B3 : laid b3 (put (put (put (fun _ => []) 0 scheme) 1 username) 2 password)).
      { unfold b3. clear b3. destruct (nonempty username || nonempty password) eqn:N2.
        - apply laid_string. destruct (nonempty password) eqn:N3.
          + apply laid_component, laid_string, laid_component, laid_string. auto.
          + apply nonempty_false in N3. subst password. apply laid_ext with (env := put (put (fun _ => []) 0 scheme) 1 username); [|apply laid_component, laid_string; auto].
            intros c. unfold put. destruct c as [|[|[|c]]]; auto.
        - apply orb_false_elim in N2. destruct N2 as [N2 N3]. apply nonempty_false in N2, N3. subst.
          apply laid_ext with (env := put (fun _ => []) 0 scheme); [|apply laid_string; auto]. intros c. unfold put. destruct c as [|[|[|c]]]; auto. }
      clearbody b3. destruct (nonempty port) eqn:N4.
      + apply laid_component, laid_string, laid_component. auto.
      + apply nonempty_false in N4. subst port.
        apply laid_ext with (env := put (put (put (put (fun _ => []) 0 scheme) 1 username) 2 password) 3 host); [|apply laid_component; auto].
        intros c. unfold put. destruct c as [|[|[|[|[|c]]]]]; auto.
    - apply orb_false_elim in N. destruct N as [N N4]. apply orb_false_elim in N. destruct N as [N N3]. apply orb_false_elim in N. destruct N as [N1 N2].
      apply nonempty_false in N1, N2, N3, N4. subst. apply laid_ext with (env := put (fun _ => []) 0 scheme); auto. intros c. unfold put. destruct c as [|[|[|[|[|c]]]]]; auto. }
  clearbody b2.
  set (b4 := write_component 5 path b2).
  assert (B4 : laid b4 (put (put (put (put (put (put (fun _ => []) 0 scheme) 1 username) 2 password) 3 host) 4 port) 5 path)) by (apply laid_component; auto).
  clearbody b4.
  set (b5 := if nonempty query then write_component 6 query (write_string [63] b4) else b4).
  assert (B5 : laid b5 (put (put (put (put (put (put (put (fun _ => []) 0 scheme) 1 username) 2 password) 3 host) 4 port) 5 path) 6 query)).
  { unfold b5. destruct (nonempty query) eqn:N; [apply laid_component, laid_string; auto|]. apply nonempty_false in N. subst query.
    eapply laid_ext; [|exact B4]. intros c. unfold put. destruct c as [|[|[|[|[|[|[|c]]]]]]]; auto. }
  clearbody b5. destruct (nonempty fragment) eqn:N.
  - eapply laid_ext; [|apply laid_component, laid_string; exact B5]. intros c. unfold put, comp. destruct c as [|[|[|[|[|[|[|[|c]]]]]]]]; auto.
  - apply nonempty_false in N. subst fragment. eapply laid_ext; [|exact B5]. intros c. unfold put, comp. destruct c as [|[|[|[|[|[|[|[|c]]]]]]]]; auto.
Qed.

Lemma zslice_at : forall {A} (pre s post : list A), zslice (pre ++ s ++ post) (zlen pre) (zlen pre + zlen s) = Some s.
Proof.
  intros A pre s post. unfold zslice. pose proof (zlen_nonneg pre). pose proof (zlen_nonneg s). pose proof (zlen_nonneg post). rewrite !zlen_app.
  destruct (Z.leb_spec 0 (zlen pre)); [|lia]. destruct (Z.leb_spec (zlen pre) (zlen pre + zlen s)); [|lia].
  destruct (Z.leb_spec (zlen pre + zlen s) (zlen pre + (zlen s + zlen post))); [|lia]. cbn [andb]. f_equal.
  replace (zlen pre + zlen s - zlen pre) with (zlen s) by lia. unfold zlen. rewrite !Nat2Z.id.
  rewrite skipn_app, skipn_all, Nat.sub_diag. cbn [skipn app]. rewrite firstn_app, Nat.sub_diag, firstn_all. cbn [firstn]. apply app_nil_r.
Qed.

Lemma new_fresh : forall k scheme username password host port path query fragment,
  k (b_text (build scheme username password host port path query fragment)) = None ->
  newURIFromComponents k scheme username password host port path query fragment =
  Some (mkURI scheme username password host port path query fragment (b_text (build scheme username password host port path query fragment))).
Proof.
  intros. unfold newURIFromComponents. rewrite H. pose proof (build_laid scheme username password host port path query fragment) as L.
  set (b := build _ _ _ _ _ _ _ _) in *.
  assert (G : forall c, zslice (b_text b) (fst (b_index b c)) (snd (b_index b c)) = Some (comp scheme username password host port path query fragment c)).
  { intros c. destruct (L c) as (pre & post & E1 & E2). rewrite E2. cbn [fst snd]. rewrite E1. apply zslice_at. }
  rewrite !G. reflexivity.
Qed.

Lemma new_components : forall k scheme username password host port path query fragment,
  unambiguous k scheme username password host port path query fragment ->
  exists v, newURIFromComponents k scheme username password host port path query fragment = Some v /\
    same_components v (mkURI scheme username password host port path query fragment []).
Proof.
  intros. unfold unambiguous in H. destruct (k _) as [u|] eqn:E.
  - exists u. unfold newURIFromComponents. rewrite E. auto.
  - rewrite new_fresh by auto. eexists. split; [reflexivity|]. unfold same_components. cbn. auto 10.
Qed.
Lemma new_raw : forall k scheme username password host port path query fragment v, own_text k ->
  newURIFromComponents k scheme username password host port path query fragment = Some v ->
  u_raw v = b_text (build scheme username password host port path query fragment).
Proof.
  intros k scheme username password host port path query fragment v O E. destruct (k (b_text (build scheme username password host port path query fragment))) as [u|] eqn:K.
  - unfold newURIFromComponents in E. rewrite K in E. injection E as <-. apply O; auto.
  - rewrite new_fresh in E by auto. injection E as <-. auto.
Qed.

Lemma build_scheme : forall scheme username password host port path query fragment, scheme <> [] ->
  exists rest, b_text (build scheme username password host port path query fragment) = scheme ++ colon :: rest.
Proof.
  intros. unfold build.
  assert (N : nonempty scheme = true). { destruct (nonempty scheme) eqn:N; auto. apply nonempty_false in N. congruence. }
  rewrite N.
  assert (WS : forall s b, (exists rest, b_text b = scheme ++ colon :: rest) -> exists rest, b_text (write_string s b) = scheme ++ colon :: rest).
  { intros s b (r & E). exists (r ++ s). cbn. rewrite E, <- app_assoc. auto. }
  assert (WC : forall c s b, (exists rest, b_text b = scheme ++ colon :: rest) -> exists rest, b_text (write_component c s b) = scheme ++ colon :: rest).
  { intros c s b (r & E). exists (r ++ s). cbn. rewrite E, <- app_assoc. auto. }
  assert (B : exists rest, b_text (write_string [colon] (write_component 0 scheme (mkB [] (fun _ => (0, 0))))) = scheme ++ colon :: rest) by (exists []; auto).
  repeat match goal with |- context [if ?c then _ else _] => destruct c end; auto 20.
Qed.

(** ** Relativize and Resolve *)
Lemma last_index_none : forall s c, last_index s c = -1 -> ~ In c s.
Proof.
  induction s as [|x s IH]; intros c H; [auto|]. cbn [last_index] in H. destruct (Z.eqb_spec (last_index s c) (-1)) as [E|E].
  - destruct (Z.eqb_spec x c); [discriminate|]. intros [I|I]; [congruence|]. apply (IH c E I).
  - assert (-1 <= last_index s c). { clear. induction s as [|y s IH]; cbn [last_index]; [lia|]. destruct (Z.eqb_spec (last_index s c) (-1)); [destruct (Z.eqb_spec y c)|]; lia. }
    lia.
Qed.
Lemma last_index_some : forall s c i, last_index s c = i -> i <> -1 -> exists a b, s = a ++ c :: b /\ ~ In c b /\ zlen a = i.
Proof.
  induction s as [|x s IH]; intros c i H N; cbn [last_index] in H; [congruence|].
  destruct (Z.eqb_spec (last_index s c) (-1)) as [E|E].
  - destruct (Z.eqb_spec x c) as [->|]; [|congruence]. exists [], s. split; auto. split; [apply last_index_none; auto|subst; auto].
  - destruct (IH c (last_index s c) eq_refl E) as (a & b & E1 & E2 & E3). exists (x :: a), b. rewrite E1. split; auto. split; auto. rewrite zlen_cons. lia.
Qed.

(** the directory of a path *)
Definition dir_of (p : str) : option str := if last_index p slash >=? 0 then zslice p 0 (last_index p slash + 1) else Some [].
Lemma dir_cases : forall p, (~ In slash p /\ last_index p slash = -1 /\ dir_of p = Some []) \/
  exists a b, p = a ++ slash :: b /\ ~ In slash b /\ last_index p slash = zlen a /\ dir_of p = Some (a ++ [slash]).
Proof.
  intros p. unfold dir_of. destruct (Z.eq_dec (last_index p slash) (-1)) as [E|E].
  - left. split; [apply last_index_none; auto|]. rewrite E. auto.
  - right. destruct (last_index_some p slash _ eq_refl E) as (a & b & E1 & E2 & E3). exists a, b. split; auto. split; auto. split; auto.
    rewrite <- E3. pose proof (zlen_nonneg a). destruct (Z.geb_spec (zlen a) 0); [|lia]. rewrite E1.
    replace (a ++ slash :: b) with ((a ++ [slash]) ++ b) by (rewrite <- app_assoc; auto).
    replace (zlen a + 1) with (zlen (a ++ [slash])) by (zlens; lia). apply zslice_prefix.
Qed.

Lemma is_prefix_split : forall p s, is_prefix p s = true -> exists r, s = p ++ r.
Proof.
  induction p as [|x p IH]; intros s H; [exists s; auto|]. destruct s as [|y s]; [discriminate|]. cbn in H. apply andb_prop in H. destruct H as [H1 H2].
  apply Z.eqb_eq in H1. subst y. destruct (IH s H2) as (r & ->). exists r. auto.
Qed.

(** no two slashes in a row *)
Lemma single_slashes : forall l, Forall (fun x : part => (snd x <= 1)%nat) l -> wf l -> forall a b, flat slash l <> a ++ slash :: slash :: b.
Proof.
  induction l as [|[s k] l IH]; intros F W a b E; [destruct a; discriminate|].
  destruct (wf_mid [] _ _ _ W) as (W1 & W2 & W3 & W4). assert (W' : wf l) by (apply (wf_app_r [(s, k)]); auto). rewrite flat_cons in E. inversion F as [|? ? F1 F2]; subst. cbn in F1.
  assert (Q : forall s, ~ In slash s -> forall a r, s ++ r = a ++ slash :: slash :: b -> exists a', r = a' ++ slash :: slash :: b).
  { clear. induction s as [|c s IHs]; intros N a r E; [exists a; auto|]. destruct a as [|y a]; cbn in E; injection E as E1 E2.
    - exfalso. apply N. cbn. auto.
    - eapply IHs; [|exact E2]. intros H; apply N; cbn; auto. }
  destruct (Q s W2 a _ E) as (a' & E').
  destruct k as [|[|k]]; [|  |lia].
  - rewrite (W4 eq_refl) in E'. cbn in E'. destruct a'; discriminate.
  - cbn [repeat app] in E'. destruct a' as [|y a']; cbn in E'; [injection E' as E2|injection E' as E1 E2].
    + pose proof (wf_starts_not l W') as SN. rewrite E2 in SN. cbn in SN. congruence.
    + apply (IH F2 W' a' b E2).
Qed.
Lemma normal_single : forall p a b, normal_path p -> p <> a ++ slash :: slash :: b.
Proof.
  intros p a b [N E] ->. destruct (normalize_canonical _ N) as (q & E' & C). rewrite E in E'. injection E' as <-. destruct C as (l & R & S & EQ).
  remember (a ++ slash :: slash :: b) as p eqn:EP.
  destruct (parse p N) as (k & pl & PE & W).
  assert (SG : segments p = number 0 pl) by (rewrite PE; unfold segments; rewrite segments_slashes; apply segments_number; auto).
  rewrite SG in R. assert (G : good l) by (eapply good_reduces; eauto; apply good_number; auto).
  pose proof (good_wf l G) as WL. unfold render in EQ. rewrite render_flat in EQ.
  assert (F1 : Forall (fun x : part => (snd x <= 1)%nat) (map part_of l)).
  { clear. induction l as [|s l IH]; constructor; auto. cbn. destruct (followed s); lia. }
  destruct (absolute p).
  - cbn [negb andb app] in EQ. rewrite EQ in EP. destruct a as [|x a]; cbn in EP; [injection EP as E2|injection EP as E1 E2].
    + pose proof (wf_starts_not _ WL) as SN. rewrite E2 in SN. cbn in SN. congruence.
    + apply (single_slashes _ F1 WL _ _ E2).
  - destruct (looks_like_scheme l); cbn [negb andb app] in EQ; rewrite EQ in EP.
    + assert (WD : wf (([dot], 1%nat) :: map part_of l)).
      { cbn [wf]. split; [discriminate|]. split; [|split; [|split; [discriminate|auto]]]; intros [H|[]]; discriminate. }
      assert (FD : Forall (fun x : part => (snd x <= 1)%nat) (([dot], 1%nat) :: map part_of l)) by (constructor; auto).
      apply (single_slashes _ FD WD a b). rewrite flat_cons. exact EP.
    + apply (single_slashes _ F1 WL _ _ EP).
Qed.

Lemma str_eqb_refl : forall a, str_eqb a a = true.
Proof. intros a. unfold str_eqb. destruct (list_eq_dec _ _ _); auto. Qed.
Lemma str_eqb_eq : forall a b, str_eqb a b = true <-> a = b.
Proof. intros a b. unfold str_eqb. destruct (list_eq_dec _ _ _); split; auto; discriminate. Qed.

Lemma zslice_suffix : forall {A} (p r : list A), zslice (p ++ r) (zlen p) (zlen (p ++ r)) = Some r.
Proof. intros A p r. pose proof (zslice_at p r []) as Q. rewrite app_nil_r in Q. rewrite zlen_app. auto. Qed.

Lemma has_suffix_cases : forall p, has_suffix_slash p = true -> exists a, p = a ++ [slash].
Proof.
  intros p H. unfold has_suffix_slash in H. destruct (rev p) as [|c r] eqn:E; [discriminate|]. apply Z.eqb_eq in H. subst c.
  exists (rev r). rewrite <- (rev_involutive p), E. auto.
Qed.
Lemma dir_suffix : forall a, dir_of (a ++ [slash]) = Some (a ++ [slash]).
Proof.
  intros a. destruct (dir_cases (a ++ [slash])) as [(N & _)|(a' & b & E & N & _ & D)].
  - exfalso. apply N. apply in_elt.
  - rewrite D. f_equal. destruct (exists_last (l := slash :: b)) as (b' & y & E2); [discriminate|]. rewrite E2, app_assoc in E. apply app_inj_tail in E. destruct E as [-> <-].
    destruct b' as [|z b']; cbn in E2; injection E2 as E2; subst.
    + rewrite app_nil_r. auto.
    + exfalso. apply N. apply in_elt.
Qed.

(** what Relativize returns: the URI itself, or the rest of its path after the directory of the base *)
Lemma relativize_cases : forall k base u r, normal_path (u_path base) -> normal_path (u_path u) ->
  relativize k base u = Some r ->
  r = u \/ exists d rest, newURIFromComponents k [] [] [] [] [] rest (u_query u) (u_fragment u) = Some r /\ u_path u = d ++ rest /\
    (rest = [] \/ (dir_of (u_path base) = Some d /\ (d = [] \/ exists a, d = a ++ [slash]))).
Proof.
  intros k base u r [_ NB] [_ NU] H. unfold relativize in H.
  destruct (isOpaque u || isOpaque base); [left; congruence|].
  destruct (str_eqb (u_scheme base) (u_scheme u)); cbn [negb] in H; [|left; congruence].
  destruct (authority base) as [a1|]; [|discriminate]. cbn [obind] in H. destruct (authority u) as [a2|]; [|discriminate]. cbn [obind] in H.
  destruct (str_eqb a1 a2); cbn [negb] in H; [|left; congruence]. rewrite NB, NU in H. cbn [obind] in H.
  destruct (str_eqb (u_path base) (u_path u)) eqn:E.
  - apply str_eqb_eq in E. rewrite <- E in H. pose proof (zslice_suffix (u_path base) []) as Z. rewrite app_nil_r in Z. rewrite Z in H. cbn [obind] in H.
    right. exists (u_path base), []. rewrite app_nil_r. auto.
  - assert (D : exists d, (if has_suffix_slash (u_path base) then Some (u_path base) else zslice (u_path base) 0 (last_index (u_path base) slash + 1)) = Some d /\
             dir_of (u_path base) = Some d /\ (d = [] \/ exists a, d = a ++ [slash])).
    { destruct (has_suffix_slash (u_path base)) eqn:HS.
      - destruct (has_suffix_cases _ HS) as (a & Ea). exists (u_path base). rewrite Ea. split; auto. split; [apply dir_suffix|]. right. exists a. auto.
      - destruct (dir_cases (u_path base)) as [(N & L & Dd)|(a & b & Ea & N & L & Dd)].
        + exists []. rewrite L. split; [|auto]. change (-1 + 1) with (zlen (@nil Z)). apply (zslice_prefix []).
        + exists (a ++ [slash]). rewrite L. split; [|split; [auto|right; exists a; auto]]. rewrite Ea.
          replace (a ++ slash :: b) with ((a ++ [slash]) ++ b) by (rewrite <- app_assoc; auto).
          replace (zlen a + 1) with (zlen (a ++ [slash])) by (zlens; lia). apply zslice_prefix. }
    destruct D as (d & Ed & Dd & Dc). rewrite Ed in H. cbn [obind] in H.
    destruct (is_prefix d (u_path u)) eqn:P; cbn [negb] in H; [|left; congruence].
    destruct (is_prefix_split _ _ P) as (rest & Er). rewrite Er in H. rewrite zslice_suffix in H. cbn [obind] in H.
    right. exists d, rest. auto.
Qed.

Lemma same_components_refl : forall u, same_components u u.
Proof. intros; unfold same_components; auto 10. Qed.

Lemma relativize_resolve : forall k k' base u r,
  u_scheme u <> [] -> same_base base u -> normal_path (u_path base) -> normal_path (u_path u) -> u_path base <> [] -> u_path u <> [] ->
  (forall d rest, u_path u = d ++ rest -> unambiguous k [] [] [] [] [] rest (u_query u) (u_fragment u)) ->
  unambiguous k' (u_scheme u) (u_username u) (u_password u) (u_host u) (u_port u) (u_path u) (u_query u) (u_fragment u) ->
  relativize k base u = Some r -> u_path r <> [] ->
  exists v, resolve k' base r = Some v /\ same_components v u.
Proof.
  intros k k' base u r SN SB NB NU PB PU K K' H PR.
  assert (OB : isOpaque base = false). { unfold isOpaque. destruct (u_path base); [congruence|]. rewrite zlen_cons. pose proof (zlen_nonneg l). destruct (Z.eqb_spec (1 + zlen l) 0); auto. lia. }
  assert (OR : isOpaque r = false). { unfold isOpaque. destruct (u_path r); [congruence|]. rewrite zlen_cons. pose proof (zlen_nonneg l). destruct (Z.eqb_spec (1 + zlen l) 0); auto. lia. }
  pose proof (relativize_cases k base u r NB NU H) as C. destruct C as [->|(d & rest & E & EU & C)].
  - (* the URI itself *)
    unfold resolve. rewrite OB, OR. cbn [orb].
    assert (A : exists a, authority u = Some a).
    { (* Relativize has already computed it, unless it gave up before: then the schemes differ *)
      unfold relativize in H. rewrite OB, OR in H. cbn [orb] in H. destruct SB as [S1 _]. rewrite S1, str_eqb_refl in H. cbn [negb] in H.
      destruct (authority base); [|discriminate]. cbn [obind] in H. destruct (authority u) as [a|]; [|discriminate]. exists a. auto. }
    destruct A as (a & A). rewrite A. cbn [obind].
    assert (ZS : (zlen (u_scheme u) =? 0) = false). { destruct (u_scheme u); [congruence|]. rewrite zlen_cons. pose proof (zlen_nonneg l). destruct (Z.eqb_spec (1 + zlen l) 0); auto. lia. }
    rewrite ZS. cbn [andb negb]. exists u. split; auto. apply same_components_refl.
  - destruct (new_components k [] [] [] [] [] rest (u_query u) (u_fragment u) (K d rest EU)) as (r' & E' & SC). rewrite E in E'. injection E' as <-.
    destruct SC as (C1 & C2 & C3 & C4 & C5 & C6 & C7 & C8). cbn in C1, C2, C3, C4, C5, C6, C7, C8.
    rewrite C6 in PR. destruct C as [->|[Dd Dc]]; [congruence|].
    unfold resolve. rewrite OB, OR. cbn [orb].
    assert (A : authority r = Some []) by (unfold authority; rewrite C4; auto).
    rewrite A. cbn [obind]. rewrite C1, C6. change (zlen (@nil Z) =? 0) with true. cbn [negb andb].
    assert (ZR : (zlen rest =? 0) = false). { destruct rest; [congruence|]. rewrite zlen_cons. pose proof (zlen_nonneg rest). destruct (Z.eqb_spec (1 + zlen rest) 0); auto. lia. }
    rewrite ZR. cbn [negb andb].
    assert (P : match rest with c :: _ => if c =? slash then Some rest else resolvePath (u_path base) rest | [] => resolvePath (u_path base) rest end = Some (u_path u)).
    { assert (RP : resolvePath (u_path base) rest = Some (u_path u)).
      { unfold resolvePath. fold (dir_of (u_path base)). rewrite Dd. cbn [obind]. rewrite ZR. rewrite <- EU. apply NU. }
      destruct rest as [|c rest]; auto. destruct (Z.eqb_spec c slash) as [->|]; auto. f_equal.
      destruct Dc as [->|(a & ->)]; auto. exfalso. apply (normal_single _ a rest NU). rewrite EU, <- app_assoc. auto. }
    rewrite P. cbn [obind]. rewrite C7, C8. destruct SB as (S1 & S2 & S3 & S4 & S5). rewrite S1, S2, S3, S4, S5.
    destruct (new_components _ _ _ _ _ _ _ _ _ K') as (v & E' & SC). exists v. split; auto.
Qed.

(** ** The converter *)
Lemma replacePrefix_none : forall k u old new, replacePrefix k u old new = Some None -> ~ applies u old.
Proof.
  intros k u old new H [(S1 & S2 & S3 & S4 & S5) (rest & E)]. unfold replacePrefix in H. rewrite S1, S2, S3, S4, S5, !str_eqb_refl in H. cbn [negb orb] in H.
  rewrite E in H. rewrite zlen_app in H. pose proof (zlen_nonneg rest). destruct (Z.geb_spec (zlen (u_path old) + zlen rest) (zlen (u_path old))); [|lia].
  rewrite zslice_prefix in H. cbn [obind] in H. rewrite str_eqb_refl in H. rewrite <- zlen_app, zslice_suffix in H. cbn [obind] in H.
  destruct (newURIFromComponents _ _ _ _ _ _ _ _ _); discriminate.
Qed.
Lemma replacePrefix_some : forall k u old new, replacePrefix k u old new = Some None \/
  exists rest, same_base u old /\ u_path u = u_path old ++ rest /\
    replacePrefix k u old new = option_map Some (newURIFromComponents k (u_scheme new) (u_username u) (u_password u) (u_host u) (u_port u) (u_path new ++ rest) (u_query u) (u_fragment u)).
Proof.
  intros k u old new. unfold replacePrefix.
  destruct (str_eqb (u_scheme u) (u_scheme old)) eqn:E1; [|left; auto]. destruct (str_eqb (u_username u) (u_username old)) eqn:E2; [|left; auto].
  destruct (str_eqb (u_password u) (u_password old)) eqn:E3; [|left; auto]. destruct (str_eqb (u_host u) (u_host old)) eqn:E4; [|left; auto].
  destruct (str_eqb (u_port u) (u_port old)) eqn:E5; [|left; auto]. cbn [negb orb]. apply str_eqb_eq in E1, E2, E3, E4, E5.
  destruct (Z.geb_spec (zlen (u_path u)) (zlen (u_path old))) as [L|L]; [|left; auto].
  assert (Z : exists p r, u_path u = p ++ r /\ zlen p = zlen (u_path old)).
  { exists (firstn (length (u_path old)) (u_path u)), (skipn (length (u_path old)) (u_path u)). split; [symmetry; apply firstn_skipn|]. unfold zlen in *. rewrite firstn_length. lia. }
  destruct Z as (p & r & Ep & Lp). rewrite Ep, <- Lp, zslice_prefix. cbn [obind]. destruct (str_eqb p (u_path old)) eqn:E6; [|left; auto]. apply str_eqb_eq in E6. subst p.
  rewrite zslice_suffix. cbn [obind]. right. exists r. split; [unfold same_base; auto 10|]. split; auto.

Qed.

Lemma raw_differs : forall u v, named u -> named v -> u_scheme u <> u_scheme v -> equals u v = false.
Proof.
  intros u v (NU & CU & ru & EU) (NV & CV & rv & EV) D. unfold equals. destruct (str_eqb (u_raw u) (u_raw v)) eqn:E; auto. apply str_eqb_eq in E.
  exfalso. apply D. rewrite EU, EV in E. clear - CU CV E. revert E. generalize (u_scheme v) CV. generalize (u_scheme u) CU. clear.
  induction l as [|x l IH]; intros CU [|y l'] CV E; auto.
  - cbn in E. injection E as E1 E2. exfalso. apply CV. cbn. auto.
  - cbn in E. injection E as E1 E2. exfalso. apply CU. cbn. auto.
  - cbn in E. injection E as E1 E2. subst y. f_equal. apply IH; auto; [intros H; apply CU; cbn; auto|intros H; apply CV; cbn; auto].
Qed.

Lemma getURI_cases : forall k m u, own_text k ->
  (forall old new, In (old, new) m -> forall username password host port path query fragment, unambiguous k (u_scheme new) username password host port path query fragment) ->
  (forall old new, In (old, new) m -> u_scheme new <> [] /\ ~ In colon (u_scheme new)) ->
  (getURIFromMap k m u = Some u /\ forall old new, In (old, new) m -> ~ applies u old) \/
  exists v old new, getURIFromMap k m u = Some v /\ In (old, new) m /\ replaced u old new v /\ named v.
Proof.
  intros k m u O UN NS. induction m as [|[old new] m IH].
  - left. split; auto.
  - cbn [getURIFromMap]. destruct (replacePrefix_some k u old new) as [E|(rest & SB & EP & E)].
    + rewrite E. cbn [obind]. destruct IH as [[G A]|(v & o & n & G & I & R & N)].
      * intros; eapply UN; cbn; eauto.
      * intros; eapply NS; cbn; eauto.
      * left. split; auto. intros o n [I|I]; [injection I as <- <-; eapply replacePrefix_none; eauto|eapply A; eauto].
      * right. exists v, o, n. cbn. auto.
    + destruct (new_components k (u_scheme new) (u_username u) (u_password u) (u_host u) (u_port u) (u_path new ++ rest) (u_query u) (u_fragment u)) as (v & EV & SC).
      { eapply UN; cbn; eauto. }
      rewrite E, EV. cbn [option_map obind]. right. exists v, old, new. split; auto. split; [cbn; auto|].
      split; [split; auto; exists rest; auto|].
      destruct (NS old new) as [N1 N2]; [cbn; auto|]. destruct SC as (C1 & _). cbn in C1. unfold named. rewrite C1. split; auto. split; auto.
      rewrite (new_raw _ _ _ _ _ _ _ _ _ _ O EV). apply build_scheme. auto.
Qed.

Lemma convert_terminates : forall (rank : str -> nat) m ks orders,
  (forall n x, In x (orders n) <-> In x m) -> clear_caches ks m ->
  (forall old new, In (old, new) m -> (rank (u_scheme new) < rank (u_scheme old))%nat /\ u_scheme new <> [] /\ ~ In colon (u_scheme new)) ->
  forall fuel u, named u -> (rank (u_scheme u) < fuel)%nat ->
  exists v, convert fuel ks orders u = Some v /\ clos_refl_trans_1n _ (maps_to m) u v /\ forall old new, In (old, new) m -> ~ applies v old.
Proof.
  intros rank m ks orders O C NS. induction fuel as [|fuel IH]; intros u N F; [lia|]. cbn [convert].
  destruct (C fuel) as [OT UN].
  destruct (getURI_cases (ks fuel) (orders fuel) u OT) as [[G A]|(v & old & new & G & I & R & NV)].
  - intros old new I. apply (UN old). apply (O fuel). auto.
  - intros old new I. apply O in I. destruct (NS _ _ I) as (_ & H). auto.
  - rewrite G. cbn [obind]. unfold equals. rewrite str_eqb_refl. exists u. split; auto. split; [constructor|]. intros o n I. apply (A o n). apply O. auto.
  - rewrite G. cbn [obind]. apply O in I. destruct (NS _ _ I) as (RK & N1 & N2).
    destruct R as [(S1 & S2) (rest & EP & SC)]. destruct SC as (C1 & C2). cbn in C1.
    rewrite raw_differs; auto. 2:{ rewrite C1, S1. intros Q. rewrite Q in RK. lia. }
    destruct (IH v NV) as (w & EW & CW & AW). { rewrite C1. rewrite S1 in F. lia. }
    exists w. split; auto. split; auto. econstructor 2; [|exact CW]. exists old, new. split; auto. split; [split; auto|]. exists rest. split; auto. split; auto.
Qed.
