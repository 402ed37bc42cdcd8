(** Proofs about paths: joining, and the normal form. *)
From Coq Require Import Relations.
From Verif Require Import Base UriModel UriSpec UriProofs UriProofs2.
Open Scope Z_scope.

Definition tail_of (k : nat) : str := match k with O => [] | _ => [slash] end.
Definition joined (l : list marked) : str := flat_map (fun x : marked => if snd x then fst (fst x) ++ tail_of (snd (fst x)) else []) l.

Lemma find_end_run : forall s fuel a rest, (length s < fuel)%nat -> ~ In nul s -> starts_with_or_nil nul rest ->
  find_end fuel (a ++ s ++ rest) (zlen a) = Some (zlen a + zlen s).
Proof.
  induction s as [|c s IH]; intros fuel a rest F N S; (destruct fuel as [|fuel]; [cbn in F; lia|]); cbn [find_end].
  - cbn [app]. zlens. rewrite Z.add_0_r. destruct rest as [|x rest].
    + zlens. destruct (Z.leb_spec (zlen a) (zlen a + 0 - 1)); [lia|auto].
    + cbn in S. subst x. destruct (Z.leb_spec (zlen a) (zlen a + zlen (nul :: rest) - 1)) as [L|L]; auto.
      rewrite zget_mid by auto. cbn. auto.
  - zlens. pose proof (zlen_nonneg s). pose proof (zlen_nonneg rest). cbn [app].
    destruct (Z.leb_spec (zlen a) (zlen a + (1 + zlen s + zlen rest) - 1)) as [L|L]; [|exfalso; lia].
    rewrite zget_mid by auto. cbn [obind]. destruct (Z.eqb_spec c nul) as [->|_]; [exfalso; apply N; cbn; auto|]. cbn [negb].
    replace (a ++ c :: s ++ rest) with ((a ++ [c]) ++ s ++ rest) by (rewrite <- app_assoc; auto).
    replace (zlen a + 1) with (zlen (a ++ [c])) by (zlens; lia). rewrite IH; auto.
    + f_equal. zlens. lia.
    + cbn in F. lia.
    + intros H1. apply N. cbn. auto.
Qed.

Lemma copy_down_run : forall s fuel out junk rest, (length s < fuel)%nat -> ~ In nul s -> starts_with_or_nil nul rest -> junk <> [] ->
  exists junk', zlen junk' = zlen junk /\
  copy_down fuel (out ++ junk ++ s ++ rest) (zlen out) (zlen out + zlen junk) =
  Some (out ++ s ++ junk' ++ rest, zlen out + zlen s, zlen out + zlen junk + zlen s).
Proof.
  induction s as [|c s IH]; intros fuel out junk rest F N S J; (destruct fuel as [|fuel]; [cbn in F; lia|]); cbn [copy_down].
  - exists junk. split; auto. cbn [app]. zlens. rewrite !Z.add_0_r. destruct rest as [|x rest].
    + zlens. destruct (Z.leb_spec (zlen out + zlen junk) (zlen out + (zlen junk + 0) - 1)); [lia|auto].
    + cbn in S. subst x. zlens. pose proof (zlen_nonneg rest). destruct (Z.leb_spec (zlen out + zlen junk) (zlen out + (zlen junk + (1 + zlen rest)) - 1)) as [L|L]; auto.
      rewrite app_assoc. rewrite zget_mid by (zlens; auto). cbn. auto.
  - destruct junk as [|j junk]; [congruence|].
    destruct (IH fuel (out ++ [c]) (junk ++ [c]) rest) as (junk' & L' & E'); auto.
    { cbn in F. lia. }
    { intros H1. apply N. cbn. auto. }
    { intros H1. apply app_eq_nil in H1. destruct H1; discriminate. }
    exists junk'. split. { rewrite L'. zlens. lia. }
    pose proof (zlen_nonneg s). pose proof (zlen_nonneg rest).
    destruct (Z.leb_spec (zlen out + zlen (j :: junk)) (zlen (out ++ (j :: junk) ++ (c :: s) ++ rest) - 1)) as [L|L]; [|exfalso; zlens_in L; lia].
    replace (out ++ (j :: junk) ++ (c :: s) ++ rest) with ((out ++ j :: junk) ++ c :: s ++ rest) by (rewrite <- !app_assoc; auto).
    rewrite zget_mid by (zlens; auto). cbn [obind]. destruct (Z.eqb_spec c nul) as [->|_]; [exfalso; apply N; cbn; auto|]. cbn [negb].
    replace ((out ++ j :: junk) ++ c :: s ++ rest) with (out ++ j :: junk ++ c :: s ++ rest) by (rewrite <- !app_assoc; auto).
    rewrite zset_mid by auto. cbn [obind].
    replace (out ++ c :: junk ++ c :: s ++ rest) with ((out ++ [c]) ++ (junk ++ [c]) ++ s ++ rest) by (rewrite <- !app_assoc; auto).
    replace (zlen out + 1) with (zlen (out ++ [c])) by (zlens; lia).
    replace (zlen out + zlen (j :: junk) + 1) with (zlen (out ++ [c]) + zlen (junk ++ [c])) by (zlens; lia).
    rewrite E'. rewrite <- !app_assoc. cbn [app].
    replace (zlen (out ++ [c]) + zlen s) with (zlen out + zlen (c :: s)) by (zlens; lia).
    replace (zlen (out ++ [c]) + zlen (junk ++ [c]) + zlen s) with (zlen out + zlen (j :: junk) + zlen (c :: s)) by (zlens; lia). auto.
Qed.

Lemma join_loop_run : forall l out junk, wf (parts l) -> exists junk',
  join_loop (out ++ junk ++ flat nul (parts l)) (marks (zlen (out ++ junk)) l) (zlen out) = Some (out ++ joined l ++ junk', zlen (out ++ joined l)).
Proof.
  induction l as [|[[s k] b] l IH]; intros out junk W.
  - exists junk. cbn. rewrite !app_nil_r. auto.
  - change (parts (((s, k), b) :: l)) with ((s, k) :: parts l) in *. destruct (wf_mid [] _ _ _ W) as (W1 & W2 & W3 & W4).
    assert (W' : wf (parts l)) by (apply (wf_app_r [(s, k)]); auto).
    rewrite flat_cons. cbn [marks join_loop].
    assert (RS : starts_with_or_nil nul (repeat nul k ++ flat nul (parts l))) by (apply rest_starts; auto).
    destruct b.
    2:{ rewrite Z.eqb_refl. destruct (IH out (junk ++ s ++ repeat nul k) W') as (junk' & E). exists junk'.
        change (joined (((s, k), false) :: l)) with (joined l). rewrite <- E. rewrite <- !app_assoc. f_equal. f_equal. zlens. lia. }
    change (joined (((s, k), true) :: l)) with ((s ++ tail_of k) ++ joined l).
    pose proof (zlen_nonneg out). pose proof (zlen_nonneg junk). pose proof (zlen_nonneg s). pose proof (zlen_nonneg (flat nul (parts l))).
    destruct (Z.eqb_spec (zlen (out ++ junk)) (-1)) as [E0|_]; [exfalso; zlens_in E0; lia|].
    destruct junk as [|j junk].
    + rewrite !app_nil_r. rewrite Z.eqb_refl. cbn [app]. rewrite find_end_run; auto.
      2:{ unfold fuel_of. rewrite !app_length. lia. }
      cbn [obind]. zlens. destruct k as [|k].
      * assert (l = []) as -> by (specialize (W4 eq_refl); destruct l; [auto|discriminate]).
        cbn [repeat app tail_of flat flat_map parts map joined marks join_loop]. zlens. rewrite !app_nil_r.
        destruct (Z.leb_spec (zlen out + zlen s) (zlen out + (zlen s + (Z.of_nat 0 + 0)) - 1)); [exfalso; lia|].
        exists []. rewrite app_nil_r. peq.
      * destruct (Z.leb_spec (zlen out + zlen s) (zlen out + (zlen s + (Z.of_nat (S k) + zlen (flat nul (parts l)))) - 1)); [|exfalso; lia].
        replace (out ++ s ++ repeat nul (S k) ++ flat nul (parts l)) with ((out ++ s) ++ nul :: repeat nul k ++ flat nul (parts l)) by (rewrite <- !app_assoc; auto).
        rewrite zset_mid by (zlens; auto). cbn [obind].
        destruct (IH (out ++ s ++ [slash]) (repeat nul k) W') as (junk' & E). exists junk'.
        replace ((out ++ s) ++ slash :: repeat nul k ++ flat nul (parts l)) with ((out ++ s ++ [slash]) ++ repeat nul k ++ flat nul (parts l)) by (rewrite <- !app_assoc; auto).
        replace (zlen out + zlen s + 1) with (zlen (out ++ s ++ [slash])) by (zlens; lia).
        replace (zlen out + zlen s + Z.of_nat (S k)) with (zlen ((out ++ s ++ [slash]) ++ repeat nul k)) by (zlens; lia).
        rewrite E. cbn [tail_of]. rewrite <- !app_assoc. cbn [app]. f_equal. f_equal. zlens. lia.
    + pose proof (zlen_nonneg junk).
      destruct (Z.eqb_spec (zlen out) (zlen (out ++ j :: junk))) as [E0|_]; [exfalso; zlens_in E0; lia|].
      destruct (Z.ltb_spec (zlen out) (zlen (out ++ j :: junk))) as [_|E0]; [|exfalso; zlens_in E0; lia].
      destruct (copy_down_run s (fuel_of (out ++ (j :: junk) ++ s ++ repeat nul k ++ flat nul (parts l))) out (j :: junk) (repeat nul k ++ flat nul (parts l))) as (jk & JL & JE); auto.
      { unfold fuel_of. rewrite !app_length. lia. }
      { discriminate. }
      replace (zlen (out ++ j :: junk)) with (zlen out + zlen (j :: junk)) by (zlens; lia).
      rewrite JE. cbn [obind]. destruct k as [|k].
      * assert (l = []) as -> by (specialize (W4 eq_refl); destruct l; [auto|discriminate]).
        cbn [repeat app tail_of flat flat_map parts map joined marks join_loop]. rewrite !app_nil_r.
        destruct (Z.leb_spec (zlen out + zlen (j :: junk) + zlen s) (zlen (out ++ j :: junk ++ s) - 1)) as [E0|_]; [exfalso; zlens_in E0; lia|].
        exists jk. rewrite zlen_app. auto.
      * destruct (Z.leb_spec (zlen out + zlen (j :: junk) + zlen s) (zlen (out ++ (j :: junk) ++ s ++ repeat nul (S k) ++ flat nul (parts l)) - 1)) as [_|E0]; [|exfalso; zlens_in E0; lia].
        destruct jk as [|j' jk]; [exfalso; zlens_in JL; lia|].
        replace (out ++ s ++ (j' :: jk) ++ repeat nul (S k) ++ flat nul (parts l)) with ((out ++ s) ++ j' :: jk ++ repeat nul (S k) ++ flat nul (parts l)) by (rewrite <- !app_assoc; auto).
        rewrite zset_mid by (zlens; auto). cbn [obind].
        destruct (IH (out ++ s ++ [slash]) (jk ++ repeat nul (S k)) W') as (junk' & E). exists junk'.
        replace ((out ++ s) ++ slash :: jk ++ repeat nul (S k) ++ flat nul (parts l)) with ((out ++ s ++ [slash]) ++ (jk ++ repeat nul (S k)) ++ flat nul (parts l)) by (rewrite <- !app_assoc; auto).
        replace (zlen out + zlen s + 1) with (zlen (out ++ s ++ [slash])) by (zlens; lia).
        replace (zlen out + zlen (j :: junk) + zlen s + Z.of_nat (S k)) with (zlen ((out ++ s ++ [slash]) ++ jk ++ repeat nul (S k))) by (zlens_in JL; zlens; lia).
        rewrite E. cbn [tail_of]. rewrite <- !app_assoc. cbn [app]. reflexivity.
Qed.

Lemma zslice_prefix : forall {A} (o j : list A), zslice (o ++ j) 0 (zlen o) = Some o.
Proof.
  intros A o j. unfold zslice. pose proof (zlen_nonneg o). pose proof (zlen_nonneg j).
  destruct (Z.leb_spec 0 0); [|lia]. destruct (Z.leb_spec 0 (zlen o)); [|lia]. rewrite zlen_app.
  destruct (Z.leb_spec (zlen o) (zlen o + zlen j)); [|lia]. cbn [andb]. f_equal.
  change (Z.to_nat 0) with 0%nat. cbn [skipn]. rewrite Z.sub_0_r. unfold zlen. rewrite Nat2Z.id. rewrite firstn_app, Nat.sub_diag, firstn_all, app_nil_r. auto.
Qed.

Definition has_colon (s : str) : bool := if in_dec Z.eq_dec colon s then true else false.
Lemma has_colon_cons : forall c s, has_colon (c :: s) = (c =? colon) || has_colon s.
Proof.
  intros c s. unfold has_colon. destruct (in_dec Z.eq_dec colon (c :: s)) as [[->|I]|N].
  - rewrite Z.eqb_refl. auto.
  - destruct (in_dec Z.eq_dec colon s); [|tauto]. rewrite orb_true_r. auto.
  - destruct (Z.eqb_spec c colon) as [->|_]; [exfalso; apply N; cbn; auto|]. cbn [orb].
    destruct (in_dec Z.eq_dec colon s); auto. exfalso; apply N; cbn; auto.
Qed.

Definition stops (path : str) (p : Z) : option bool := if p >=? zlen path then Some true else let? c := zget path p in Some (c =? nul).
Lemma find_colon_run : forall s fuel a rest, (length s < fuel)%nat -> ~ In nul s -> starts_with_or_nil nul rest ->
  exists p, find_colon fuel (a ++ s ++ rest) (zlen a) = Some p /\ stops (a ++ s ++ rest) p = Some (negb (has_colon s)).
Proof.
  induction s as [|c s IH]; intros fuel a rest F N S; (destruct fuel as [|fuel]; [cbn in F; lia|]); cbn [find_colon].
  - exists (zlen a). cbn [app]. unfold stops. destruct rest as [|x rest].
    + rewrite app_nil_r. destruct (Z.ltb_spec (zlen a) (zlen a)); [lia|]. split; auto. rewrite Z.geb_leb. destruct (Z.leb_spec (zlen a) (zlen a)); [auto|lia].
    + cbn in S. subst x. rewrite zget_mid by auto. cbn [obind]. change ((nul =? colon)) with false. change (nul =? nul) with true. cbn [negb andb].
      zlens. pose proof (zlen_nonneg rest). destruct (Z.ltb_spec (zlen a) (zlen a + (1 + zlen rest))); [|lia]. split; auto.
      destruct (zlen a >=? zlen a + (1 + zlen rest)); auto.
  - cbn [app]. pose proof (zlen_nonneg s). pose proof (zlen_nonneg rest).
    assert (LL : zlen a < zlen (a ++ c :: s ++ rest)) by (zlens; lia).
    destruct (Z.ltb_spec (zlen a) (zlen (a ++ c :: s ++ rest))) as [_|E0]; [|lia].
    rewrite zget_mid by auto. cbn [obind]. rewrite has_colon_cons. destruct (Z.eqb_spec c nul) as [->|_]; [exfalso; apply N; cbn; auto|].
    destruct (Z.eqb_spec c colon) as [->|NC]; cbn [negb andb orb].
    + exists (zlen a). split; auto. unfold stops. rewrite Z.geb_leb. destruct (Z.leb_spec (zlen (a ++ colon :: s ++ rest)) (zlen a)); [lia|]. rewrite zget_mid by auto. reflexivity.
    + replace (a ++ c :: s ++ rest) with ((a ++ [c]) ++ s ++ rest) by (rewrite <- app_assoc; auto).
      replace (zlen a + 1) with (zlen (a ++ [c])) by (zlens; lia). apply IH; auto.
      * cbn in F; lia.
      * intros H1. apply N. cbn. auto.
Qed.

Lemma first_alive_cases : forall d : list marked, (forall x, In x d -> snd x = false) \/
  exists d1 x d2, d = d1 ++ (x, true) :: d2 /\ forall y, In y d1 -> snd y = false.
Proof.
  induction d as [|[x b] d IH].
  - left. intros x [].
  - destruct b.
    + right. exists [], x, d. split; auto. intros y [].
    + destruct IH as [A|(d1 & y & d2 & -> & A)].
      * left. intros y [<-|H]; auto.
      * right. exists ((x, false) :: d1), y, d2. split; auto. intros z [<-|H]; auto.
Qed.
Lemma first_segment_dead : forall d off rest, (forall x, In x d -> snd x = false) -> first_segment (marks off d ++ rest) = zlen d + first_segment rest.
Proof.
  induction d as [|[[s k] b] d IH]; intros off rest H; [cbn; auto|]. cbn [marks app first_segment].
  assert (b = false) as -> by (apply (H ((s, k), b)); cbn; auto). change (-1 >=? 0) with false. cbv iota. rewrite IH by (intros; apply H; cbn; auto). zlens. lia.
Qed.

(** a dot is needed in front: the path is relative, its first segment is gone, and the first remaining one contains a colon *)
Definition dotted (ms : list marked) : bool :=
  match ms with
  | (_, false) :: _ => match find snd ms with Some (x, _) => has_colon (fst x) | None => false end
  | _ => false
  end.

Lemma find_snd_dead : forall (d : list marked) x r, (forall y, In y d -> snd y = false) -> find snd (d ++ (x, true) :: r) = Some (x, true).
Proof. induction d as [|y d IH]; intros x r H; cbn; auto. rewrite (H y) by (cbn; auto). apply IH. intros; apply H; cbn; auto. Qed.
Lemma find_snd_none : forall (d : list marked), (forall y, In y d -> snd y = false) -> find snd d = None.
Proof. induction d as [|y d IH]; intros H; cbn; auto. rewrite (H y) by (cbn; auto). apply IH. intros; apply H; cbn; auto. Qed.

Lemma dot_and_join : forall k ms, wf (parts ms) -> (k <> 0%nat \/ ms <> []) ->
  (let? r := maybeAddLeadingDot (repeat nul k ++ flat nul (parts ms)) (marks (Z.of_nat k) ms) in
   let '(runes, segs) := r in
   let? r := join runes segs in
   let '(runes, newSize) := r in
   zslice runes 0 newSize) =
  Some ((if Nat.eqb k 0 && dotted ms then [dot; slash] else []) ++ (if Nat.eqb k 0 then [] else [slash]) ++ joined ms).
Proof.
  intros k ms W NE. unfold maybeAddLeadingDot. destruct k as [|k].
  - destruct NE as [NE|NE]; [congruence|]. cbn [repeat app Nat.eqb andb]. change (Z.of_nat 0) with 0.
    assert (NORMAL : forall A, A = flat nul (parts ms) ->
      (let? r := join A (marks 0 ms) in let '(runes, newSize) := r in zslice runes 0 newSize) = Some (joined ms)).
    { intros A ->. unfold join. destruct ms as [|[[s k] b] ms]; [congruence|]. change (parts ((s, k, b) :: ms)) with ((s, k) :: parts ms) in *.
      destruct (wf_mid [] _ _ _ W) as (W1 & W2 & W3 & W4). rewrite flat_cons. destruct s as [|c s]; [congruence|].
      change (zget ((c :: s) ++ repeat nul k ++ flat nul (parts ms)) 0) with (Some c). cbn [obind]. destruct (Z.eqb_spec c nul) as [->|_]; [exfalso; apply W3; cbn; auto|].
      destruct (join_loop_run ((c :: s, k, b) :: ms) [] [] W) as (junk & E). cbn [app] in E. change (zlen []) with 0 in E.
      change (parts ((c :: s, k, b) :: ms)) with ((c :: s, k) :: parts ms) in E. rewrite flat_cons in E.
      rewrite E. cbn [obind]. apply zslice_prefix. }
    assert (Z0 : exists c, zget (flat nul (parts ms)) 0 = Some c /\ (c =? nul) = false).
    { destruct ms as [|[[s k] b] ms]; [congruence|]. change (parts ((s, k, b) :: ms)) with ((s, k) :: parts ms) in *.
      destruct (wf_mid [] _ _ _ W) as (W1 & W2 & W3 & W4). rewrite flat_cons. destruct s as [|c s]; [congruence|]. exists c. split; [reflexivity|].
      destruct (Z.eqb_spec c nul) as [->|_]; [exfalso; apply W3; cbn; auto|auto]. }
    destruct Z0 as (c & Z1 & Z2). rewrite Z1. cbn [obind]. rewrite Z2.
    destruct (first_alive_cases ms) as [A|(d1 & [s k] & d2 & E & A)].
    + pose proof (first_segment_dead ms 0 [] A) as FS. rewrite app_nil_r in FS. cbn in FS. rewrite Z.add_0_r in FS. rewrite FS, marks_zlen.
      destruct (Z.geb_spec (zlen ms) (zlen ms)); [|lia]. cbn [orb obind]. rewrite NORMAL by auto.
      replace (dotted ms) with false; auto. unfold dotted. destruct ms as [|[x b] ms]; auto. destruct b; auto. rewrite find_snd_none by auto. auto.
    + assert (FS : first_segment (marks 0 ms) = zlen d1).
      { rewrite E, marks_app, first_segment_dead by auto. cbn [marks first_segment]. pose proof (zlen_nonneg (flat nul (parts d1))).
        destruct (Z.geb_spec (0 + zlen (flat nul (parts d1))) 0); lia. }
      rewrite FS, marks_zlen. assert (LT : zlen d1 < zlen ms) by (rewrite E; zlens; pose proof (zlen_nonneg d2); lia).
      destruct (Z.geb_spec (zlen d1) (zlen ms)); [lia|]. cbn [orb].
      destruct (Z.eqb_spec (zlen d1) 0) as [D0|D0].
      * cbn [obind]. rewrite NORMAL by auto. assert (d1 = []) as -> by (destruct d1; auto; zlens_in D0; pose proof (zlen_nonneg d1); lia).
        subst ms. reflexivity.
      * assert (WT : s <> [] /\ ~ In slash s /\ ~ In nul s /\ (k = 0%nat -> parts d2 = [])).
        { apply (wf_mid (parts d1)). rewrite E, parts_app in W. exact W. }
        destruct WT as (T1 & T2 & T3 & T4).
        assert (ZG : zget (marks 0 ms) (zlen d1) = Some (zlen (flat nul (parts d1)))).
        { rewrite E, marks_app. cbn [marks]. rewrite zget_mid by (rewrite marks_zlen; auto). auto. }
        rewrite ZG. cbn [obind].
        assert (EA : flat nul (parts ms) = flat nul (parts d1) ++ s ++ repeat nul k ++ flat nul (parts d2)).
        { rewrite E, parts_app, flat_app. change (parts ((s, k, true) :: d2)) with ((s, k) :: parts d2). rewrite flat_cons. auto. }
        destruct (find_colon_run s (fuel_of (flat nul (parts ms))) (flat nul (parts d1)) (repeat nul k ++ flat nul (parts d2))) as (p & P1 & P2); auto.
        { rewrite EA. unfold fuel_of. rewrite !app_length. lia. }
        { apply rest_starts; auto. }
        rewrite <- EA in P1, P2. rewrite P1. cbn [obind]. unfold stops in P2. rewrite P2. cbn [obind].
        assert (DT : dotted ms = has_colon s).
        { rewrite E. destruct d1 as [|[x b] d1]; [cbn in D0; lia|]. assert (b = false) as -> by (apply (A (x, b)); cbn; auto).
          unfold dotted. cbn [app]. change ((x, false) :: d1 ++ (s, k, true) :: d2) with (((x, false) :: d1) ++ (s, k, true) :: d2). rewrite find_snd_dead; auto. }
        rewrite DT. destruct (has_colon s); cbn [negb].
        2:{ cbn [obind]. rewrite NORMAL by auto. auto. }
        destruct ms as [|[[s0 k0] b0] ms]; [congruence|].
        assert (d1 <> []) by (intros ->; cbn in D0; lia).
        assert (b0 = false) as -> by (destruct d1 as [|[x b] d1]; [congruence|]; injection E as E1 E2 E3; subst; apply (A ((s0, k0), b)); cbn; auto).
        assert (NM : ms <> []) by (intros ->; destruct d1 as [|x [|y d1]]; [congruence|discriminate|discriminate]).
        change (parts ((s0, k0, false) :: ms)) with ((s0, k0) :: parts ms) in *.
        destruct (wf_mid [] _ _ _ W) as (W1 & W2 & W3 & W4).
        assert (W' : wf (parts ms)) by (apply (wf_app_r [(s0, k0)]); auto).
        destruct k0 as [|k0]. { exfalso. specialize (W4 eq_refl). destruct ms; [congruence|discriminate]. }
        destruct s0 as [|c0 s0]; [congruence|].
        rewrite flat_cons.
        assert (SH : exists x j0, s0 ++ repeat nul (S k0) = x :: j0).
        { destruct s0 as [|x s0]; [exists nul, (repeat nul k0); auto|exists x, (s0 ++ repeat nul (S k0)); auto]. }
        destruct SH as (x1 & j0 & SH).
        replace ((c0 :: s0) ++ repeat nul (S k0) ++ flat nul (parts ms)) with (c0 :: x1 :: j0 ++ flat nul (parts ms)).
        2:{ rewrite (app_assoc (c0 :: s0)). change ((c0 :: s0) ++ repeat nul (S k0)) with (c0 :: (s0 ++ repeat nul (S k0))). rewrite SH. auto. }
        assert (S1 : forall (a : Z) l v, zset (a :: l) 0 v = Some (v :: l)) by (intros; apply (zset_mid []); auto).
        assert (S2 : forall (a b : Z) l v, zset (a :: b :: l) 1 v = Some (a :: v :: l)) by (intros; apply (zset_mid [a]); auto).
        rewrite S1. cbn [obind]. rewrite S2. cbn [obind]. cbn [marks]. rewrite S1. cbn [obind].
        unfold join. change (zget (dot :: nul :: j0 ++ flat nul (parts ms)) 0) with (Some dot). cbn [obind]. change (dot =? nul) with false. cbv iota.
        cbn [join_loop]. change (0 =? -1) with false. change (0 =? 0) with true. cbv iota.
        pose proof (find_end_run [dot] (fuel_of (dot :: nul :: j0 ++ flat nul (parts ms))) [] (nul :: j0 ++ flat nul (parts ms))) as FE.
        cbn [app] in FE. change (zlen []) with 0 in FE. rewrite FE; clear FE.
        2:{ unfold fuel_of. cbn. lia. }
        2:{ cbn. intros [H1|H1]; [discriminate|auto]. }
        2:{ reflexivity. }
        cbn [obind]. change (0 + zlen [dot]) with 1.
        destruct (Z.leb_spec 1 (zlen (dot :: nul :: j0 ++ flat nul (parts ms)) - 1)) as [_|E0].
        2:{ exfalso. zlens_in E0. pose proof (zlen_nonneg j0). pose proof (zlen_nonneg (flat nul (parts ms))). lia. }
        rewrite S2. cbn [obind]. change (1 + 1) with 2.
        destruct (join_loop_run ms [dot; slash] j0 W') as (junk & JE). cbn [app] in JE. change (zlen [dot; slash]) with 2 in JE.
        assert (OFF : 0 + zlen (c0 :: s0) + Z.of_nat (S k0) = zlen (dot :: slash :: j0)).
        { assert (Q : zlen (s0 ++ repeat nul (S k0)) = zlen (x1 :: j0)) by (rewrite SH; auto). zlens_in Q. zlens. lia. }
        rewrite OFF, JE. cbn [obind]. change (joined ((c0 :: s0, S k0, false) :: ms)) with (joined ms).
        change (dot :: slash :: joined ms ++ junk) with ((dot :: slash :: joined ms) ++ junk). rewrite zslice_prefix. reflexivity.
  - change (zget (repeat nul (S k) ++ flat nul (parts ms)) 0) with (Some nul). cbn [obind]. change (nul =? nul) with true. cbv iota. cbn [obind].
    unfold join. change (zget (repeat nul (S k) ++ flat nul (parts ms)) 0) with (Some nul). cbn [obind]. change (nul =? nul) with true. cbv iota.
    change (repeat nul (S k) ++ flat nul (parts ms)) with (nul :: repeat nul k ++ flat nul (parts ms)).
    assert (S1 : forall (a : Z) l v, zset (a :: l) 0 v = Some (v :: l)) by (intros; apply (zset_mid []); auto).
    rewrite S1. cbn [obind]. cbn [Nat.eqb andb app].
    destruct (join_loop_run ms [slash] (repeat nul k) W) as (junk & JE). cbn [app] in JE. change (zlen [slash]) with 1 in JE.
    replace (Z.of_nat (S k)) with (zlen (slash :: repeat nul k)) by (zlens; lia). rewrite JE. cbn [obind].
    change (slash :: joined ms ++ junk) with ((slash :: joined ms) ++ junk). apply zslice_prefix.
Qed.

Lemma normalize_run : forall k l, wf l ->
  normalize (repeat slash k ++ flat slash l) =
  Some (if Nat.leb k 1 && all_normal l then repeat slash k ++ flat slash l
        else (if Nat.eqb k 0 && dotted (fold_left push l []) then [dot; slash] else []) ++ (if Nat.eqb k 0 then [] else [slash]) ++ joined (fold_left push l [])).
Proof.
  intros k l W. unfold normalize. rewrite needs_run by auto. cbn [obind].
  destruct (Nat.leb k 1 && all_normal l) eqn:N.
  - reflexivity.
  - pose proof (zlen_nonneg l). destruct (Z.ltb_spec (zlen l) 0); [lia|]. unfold zlen. rewrite Nat2Z.id. rewrite split_run by auto. cbn [obind].
    pose proof (removeDots_run (length l) l (S (length (starts (Z.of_nat k) l))) (repeat nul k) []) as R.
    rewrite zlen_repeat in R. cbn [parts map app] in R. rewrite <- starts_alive in R. change (zlen []) with 0 in R. rewrite R; auto.
    2:{ rewrite starts_alive, marks_length. unfold alive. rewrite map_length. lia. }
    cbn [obind].
    pose proof (fold_push_parts l []) as PP. cbn [parts map app] in PP. change (map fst (fold_left push l [])) with (parts (fold_left push l [])) in PP.
    pose proof (dot_and_join k (fold_left push l [])) as DJ. rewrite PP in DJ. apply DJ; auto.
    destruct k; [|left; discriminate]. right. intros E. rewrite E in PP. cbn in PP. subst l. discriminate.
Qed.
