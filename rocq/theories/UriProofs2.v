(** Proofs about paths: removing dots and joining. *)
From Verif Require Import Base UriModel UriSpec UriProofs.
Open Scope Z_scope.

(** parts with a mark: [false] when the segment has been removed *)
Notation marked := (part * bool)%type.
Fixpoint marks (off : Z) (l : list marked) : list Z :=
  match l with
  | [] => []
  | ((s, k), b) :: l' => (if b : bool then off else -1) :: marks (off + zlen s + Z.of_nat k) l'
  end.
Definition parts (l : list marked) : list part := map fst l.
Definition alive (l : list part) : list marked := map (fun x => (x, true)) l.

Lemma parts_app : forall a b, parts (a ++ b) = parts a ++ parts b.
Proof. intros; apply map_app. Qed.
Lemma parts_alive : forall l, parts (alive l) = l.
Proof. intros. unfold parts, alive. rewrite map_map. cbn. apply map_id. Qed.
Lemma starts_alive : forall l off, starts off l = marks off (alive l).
Proof. induction l as [|[s k] l IH]; intros; cbn; auto. rewrite IH. auto. Qed.
Lemma marks_app : forall a off b, marks off (a ++ b) = marks off a ++ marks (off + zlen (flat nul (parts a))) b.
Proof.
  induction a as [|[[s k] m] a IH]; intros off b.
  - cbn. rewrite Z.add_0_r. auto.
  - change (parts (((s, k), m) :: a)) with ((s, k) :: parts a). rewrite flat_cons. cbn [marks app]. rewrite IH. f_equal. f_equal. f_equal. zlens. lia.
Qed.
Lemma marks_length : forall l off, length (marks off l) = length l.
Proof. induction l as [|[[s k] m] l IH]; intros; cbn; auto. Qed.
Lemma marks_zlen : forall l off, zlen (marks off l) = zlen l.
Proof. intros. unfold zlen. rewrite marks_length. auto. Qed.
Lemma zlen_map : forall {A B} (g : A -> B) l, zlen (map g l) = zlen l.
Proof. intros. unfold zlen. rewrite map_length. auto. Qed.
Lemma alive_app : forall a b, alive (a ++ b) = alive a ++ alive b.
Proof. intros; apply map_app. Qed.

Lemma zset_marks : forall d1 off x m d2, zset (marks off (d1 ++ (x, m) :: d2)) (zlen d1) (-1) = Some (marks off (d1 ++ (x, false) :: d2)).
Proof.
  intros d1 off [s k] m d2. rewrite !marks_app. cbn [marks]. rewrite zset_mid; auto. rewrite marks_zlen; auto.
Qed.

(** ** find_dots *)
Definition clean (l : list part) : Prop := forall x, In x l -> kind (fst x) = 0%nat.
Lemma split_clean : forall l : list part, clean l \/ exists l1 x l2, l = l1 ++ x :: l2 /\ clean l1 /\ kind (fst x) <> 0%nat.
Proof.
  induction l as [|x l IH].
  - left. intros x [].
  - destruct (Nat.eq_dec (kind (fst x)) 0) as [E|E].
    + destruct IH as [C|(l1 & y & l2 & -> & C & K)].
      * left. intros y [<-|H]; auto.
      * right. exists (x :: l1), y, l2. split; auto. split; auto. intros z [<-|H]; auto.
    + right. exists [], x, l. split; auto. split; auto. intros y [].
Qed.

Lemma wf_mid : forall l1 s k l2, wf (l1 ++ (s, k) :: l2) -> s <> [] /\ ~ In slash s /\ ~ In nul s /\ (k = 0%nat -> l2 = []).
Proof. intros l1 s k l2 H. apply wf_app_r in H. cbn in H. tauto. Qed.

Lemma dots_at_part : forall a s k l2, s <> [] -> ~ In nul s -> (k = 0%nat -> l2 = []) ->
  dots_at nul (a ++ flat nul ((s, k) :: l2)) (zlen a) = Some (kind s).
Proof. intros. rewrite flat_cons. apply dots_at_run; auto using nul_not_dot, rest_starts. Qed.

Lemma find_dots_run : forall l1 fuel a segs rest, (length l1 < fuel)%nat -> clean l1 -> wf (l1 ++ rest) ->
  find_dots fuel (a ++ flat nul (l1 ++ rest)) (segs ++ starts (zlen a) (l1 ++ rest)) (zlen segs) =
  match l1, rest with
  | [], [] => None
  | _ :: _, [] => Some (zlen segs + zlen l1, 0%nat)
  | _, (s, k) :: _ => if Nat.eqb (kind s) 0 then find_dots (fuel - length l1) (a ++ flat nul (l1 ++ rest)) (segs ++ starts (zlen a) (l1 ++ rest)) (zlen segs + zlen l1)
                      else Some (zlen segs + zlen l1, kind s)
  end.
Proof.
  induction l1 as [|[s k] l1 IH]; intros fuel a segs rest F C W; (destruct fuel as [|fuel]; [cbn in F; lia|]).
  - destruct rest as [|[s k] rest].
    + cbn [find_dots app starts]. unfold zget. rewrite app_nil_r. destruct (Z.ltb_spec (zlen segs) 0); auto. cbn.
      rewrite (proj2 (nth_error_None _ _)); auto. unfold zlen. lia.
    + destruct (wf_mid [] _ _ _ W) as (W1 & W2 & W3 & W4).
      change (zlen (@nil part)) with 0. rewrite Z.add_0_r. cbn [length]. rewrite Nat.sub_0_r.
      destruct (Nat.eqb_spec (kind s) 0) as [K|K]; auto.
      cbn [find_dots app starts]. rewrite zget_mid by auto. cbn [obind]. rewrite dots_at_part by auto. cbn [obind].
      destruct (kind s); congruence.
  - change (((s, k) :: l1) ++ rest) with ((s, k) :: (l1 ++ rest)) in *.
    destruct (wf_mid [] _ _ _ W) as (W1 & W2 & W3 & W4).
    assert (KS : kind s = 0%nat) by (apply (C (s, k)); cbn; auto).
    assert (DA : dots_at nul (a ++ flat nul ((s, k) :: l1 ++ rest)) (zlen a) = Some (kind s)) by (apply dots_at_part; auto).
    remember (l1 ++ rest) as lr eqn:LR.
    cbn [find_dots starts]. rewrite zget_mid by auto. cbn [obind]. rewrite DA, KS. cbn [obind].
    assert (E1 : a ++ flat nul ((s, k) :: lr) = (a ++ s ++ repeat nul k) ++ flat nul lr) by (rewrite flat_cons, <- !app_assoc; auto).
    assert (E2 : zlen a + zlen s + Z.of_nat k = zlen (a ++ s ++ repeat nul k)) by (zlens; lia).
    assert (E3 : forall z y, segs ++ z :: y = (segs ++ [z]) ++ y) by (intros; rewrite <- app_assoc; auto).
    subst lr.
    rewrite E1, E2, E3. replace (zlen segs + 1) with (zlen (segs ++ [zlen a])) by (zlens; lia).
    assert (LS : zlen (starts (zlen (a ++ s ++ repeat nul k)) (l1 ++ rest)) = zlen (l1 ++ rest)) by (rewrite starts_alive, marks_zlen; apply zlen_map).
    destruct (Z.ltb_spec (zlen (segs ++ [zlen a])) (zlen ((segs ++ [zlen a]) ++ starts (zlen (a ++ s ++ repeat nul k)) (l1 ++ rest)))) as [L|L].
    + rewrite IH; [|cbn in F; lia|intros z Hz; apply C; cbn; auto|cbn in W; tauto].
      assert (EQ : zlen (segs ++ [zlen a]) + zlen l1 = zlen segs + zlen ((s, k) :: l1)) by (zlens; lia).
      rewrite EQ. destruct l1 as [|x l1]; destruct rest as [|[s' k'] rest]; auto.
      exfalso. cbn [app starts] in L. rewrite app_nil_r in L. lia.
    + rewrite (zlen_app (segs ++ [zlen a])), LS in L. zlens_in L. pose proof (zlen_nonneg l1). pose proof (zlen_nonneg rest).
      assert (l1 = [] /\ rest = []) as [-> ->].
      { split; [destruct l1|destruct rest]; auto; zlens_in L; pose proof (zlen_nonneg l1); pose proof (zlen_nonneg rest); lia. }
      f_equal. f_equal. zlens. cbn. lia.
Qed.

(** ** removeDots *)
Fixpoint kill (r : list marked) : option (list marked) :=
  match r with
  | [] => None
  | (x, false) :: r' => option_map (cons (x, false)) (kill r')
  | (x, true) :: r' => if Nat.eqb (kind (fst x)) 2 then None else Some ((x, false) :: r')
  end.
Definition push (done : list marked) (x : part) : list marked :=
  match kind (fst x) with
  | 0%nat => done ++ [(x, true)]
  | 1%nat => done ++ [(x, false)]
  | _ => match kill (rev done) with Some r => rev r ++ [(x, false)] | None => done ++ [(x, true)] end
  end.

Lemma last_alive : forall d : list marked, (forall x, In x d -> snd x = false) \/
  exists d1 x d2, d = d1 ++ (x, true) :: d2 /\ forall y, In y d2 -> snd y = false.
Proof.
  induction d as [|[x b] d IH].
  - left. intros x [].
  - destruct IH as [A|(d1 & y & d2 & -> & A)].
    + destruct b.
      * right. exists [], x, d. auto.
      * left. intros y [<-|H]; auto.
    + right. exists ((x, b) :: d1), y, d2. auto.
Qed.

Lemma kill_dead : forall r, (forall x, In x r -> snd x = false) -> kill r = None.
Proof.
  induction r as [|[x b] r IH]; cbn; auto. intros H. assert (b = false) as -> by (apply (H (x, b)); auto). rewrite IH; auto.
Qed.
Lemma kill_skip : forall r1 x r2, (forall y, In y r1 -> snd y = false) ->
  kill (r1 ++ (x, true) :: r2) = if Nat.eqb (kind (fst x)) 2 then None else Some (r1 ++ (x, false) :: r2).
Proof.
  induction r1 as [|[y b] r1 IH]; intros x r2 H; cbn; auto.
  assert (b = false) as -> by (apply (H (y, b)); cbn; auto). rewrite IH by (intros; apply H; cbn; auto).
  destruct (Nat.eqb (kind (fst x)) 2); auto.
Qed.
Lemma kill_last : forall d1 x d2, (forall y, In y d2 -> snd y = false) ->
  kill (rev (d1 ++ (x, true) :: d2)) = if Nat.eqb (kind (fst x)) 2 then None else Some (rev (d1 ++ (x, false) :: d2)).
Proof.
  intros d1 x d2 H.
  assert (R : forall b : bool, rev (d1 ++ (x, b) :: d2) = rev d2 ++ (x, b) :: rev d1).
  { intros b. rewrite rev_app_distr. cbn. rewrite <- app_assoc. auto. }
  rewrite !R. apply kill_skip. intros y Hy. apply H. apply in_rev. auto.
Qed.

Lemma find_previous_dead : forall d off rest fuel, (forall x, In x d -> snd x = false) -> (length d < fuel)%nat ->
  find_previous fuel (marks off d ++ rest) (zlen d - 1) = Some (-1).
Proof.
  induction d as [|[[s k] b] d IH] using rev_ind; intros off rest fuel H F; (destruct fuel as [|fuel]; [lia|]); cbn [find_previous].
  - cbn. auto.
  - zlens. pose proof (zlen_nonneg d). destruct (Z.leb_spec 0 (zlen d + (1 + 0) - 1)); [|lia].
    rewrite marks_app. cbn [marks]. assert (b = false) as -> by (apply (H ((s, k), b)); apply in_or_app; cbn; auto).
    rewrite <- app_assoc. cbn [app]. rewrite zget_mid by (rewrite marks_zlen; lia). cbn [obind]. rewrite Z.eqb_refl.
    replace (zlen d + (1 + 0) - 1 - 1) with (zlen d - 1) by lia. apply IH.
    + intros x Hx. apply H. apply in_or_app; auto.
    + rewrite app_length in F. cbn in F. lia.
Qed.
Lemma find_previous_alive : forall d2 off d1 s k rest fuel, 0 <= off -> (forall x, In x d2 -> snd x = false) -> (length d2 < fuel)%nat ->
  find_previous fuel (marks off (d1 ++ ((s, k), true) :: d2) ++ rest) (zlen (d1 ++ ((s, k), true) :: d2) - 1) = Some (zlen d1).
Proof.
  induction d2 as [|[[s' k'] b] d2 IH] using rev_ind; intros off d1 s k rest fuel O H F; (destruct fuel as [|fuel]; [lia|]); cbn [find_previous].
  - zlens. pose proof (zlen_nonneg d1). destruct (Z.leb_spec 0 (zlen d1 + (1 + 0) - 1)); [|lia].
    rewrite marks_app. cbn [marks]. rewrite <- app_assoc. cbn [app]. rewrite zget_mid by (rewrite marks_zlen; lia). cbn [obind].
    pose proof (zlen_nonneg (flat nul (parts d1))). destruct (Z.eqb_spec (off + zlen (flat nul (parts d1))) (-1)); [lia|]. f_equal; lia.
  - replace (d1 ++ ((s, k), true) :: d2 ++ [((s', k'), b)]) with ((d1 ++ ((s, k), true) :: d2) ++ [((s', k'), b)]) by (rewrite <- app_assoc; auto).
    set (d := d1 ++ ((s, k), true) :: d2) in *. rewrite zlen_app, zlen_cons, @zlen_nil. pose proof (zlen_nonneg d).
    destruct (Z.leb_spec 0 (zlen d + (1 + 0) - 1)); [|lia].
    rewrite marks_app. cbn [marks]. assert (b = false) as -> by (apply (H ((s', k'), b)); apply in_or_app; cbn; auto).
    rewrite <- app_assoc. cbn [app]. rewrite zget_mid by (rewrite marks_zlen; lia). cbn [obind]. rewrite Z.eqb_refl.
    replace (zlen d + (1 + 0) - 1 - 1) with (zlen d - 1) by lia. apply IH; auto.
    + intros x Hx. apply H. apply in_or_app; auto.
    + rewrite app_length in F. cbn in F. lia.
Qed.

Lemma is_dotdot_run : forall a s rest, s <> [] -> ~ In nul s -> is_dotdot (a ++ s ++ nul :: rest) (zlen a) = Some (Nat.eqb (kind s) 2).
Proof.
  intros a s rest NE NN. unfold is_dotdot.
  destruct s as [|c s]; [congruence|]. cbn [app]. rewrite zget_mid by auto. cbn [obind].
  destruct (Z.eqb_spec c dot) as [->|N].
  2:{ cbn [negb]. unfold kind. destruct (list_eq_dec _ _ _) as [E|_]; [inversion E; congruence|].
      destruct (list_eq_dec _ _ _) as [E|_]; [inversion E; congruence|]. auto. }
  cbn [negb]. destruct s as [|c1 s].
  - cbn [app]. replace (a ++ dot :: nul :: rest) with ((a ++ [dot]) ++ nul :: rest) by (rewrite <- app_assoc; auto).
    rewrite zget_mid by (zlens; lia). cbn [obind]. reflexivity.
  - cbn [app]. replace (a ++ dot :: c1 :: s ++ nul :: rest) with ((a ++ [dot]) ++ c1 :: s ++ nul :: rest) by (rewrite <- app_assoc; auto).
    rewrite zget_mid by (zlens; lia). cbn [obind].
    destruct (Z.eqb_spec c1 dot) as [->|N2].
    2:{ cbn [negb]. unfold kind. destruct (list_eq_dec _ _ _) as [E1|_]; [inversion E1|].
        destruct (list_eq_dec _ _ _) as [E1|_]; [inversion E1; congruence|]. auto. }
    cbn [negb]. destruct s as [|c2 s].
    + cbn [app]. replace ((a ++ [dot]) ++ dot :: nul :: rest) with ((a ++ [dot; dot]) ++ nul :: rest) by (rewrite <- !app_assoc; auto).
      rewrite zget_mid by (zlens; lia). reflexivity.
    + cbn [app]. replace ((a ++ [dot]) ++ dot :: c2 :: s ++ nul :: rest) with ((a ++ [dot; dot]) ++ c2 :: s ++ nul :: rest) by (rewrite <- !app_assoc; auto).
      rewrite zget_mid by (zlens; lia). cbn [obind].
      destruct (Z.eqb_spec c2 nul) as [->|N3]; [exfalso; apply NN; cbn; auto|].
      unfold kind. destruct (list_eq_dec _ _ _) as [E1|_]; [inversion E1|].
      destruct (list_eq_dec _ _ _) as [E1|_]; [inversion E1|]. auto.
Qed.

Lemma push_parts : forall d x, parts (push d x) = parts d ++ [x].
Proof.
  intros d x. unfold push. destruct (kind (fst x)) as [|[|n]]; try (rewrite parts_app; auto).
  destruct (last_alive d) as [A|(d1 & y & d2 & -> & A)].
  - rewrite kill_dead by (intros y Hy; apply A; apply in_rev; auto). rewrite parts_app; auto.
  - rewrite kill_last by auto. destruct (Nat.eqb (kind (fst y)) 2); rewrite ?rev_involutive, !parts_app; auto.
Qed.
Lemma fold_push_parts : forall l d, parts (fold_left push l d) = parts d ++ l.
Proof. induction l as [|x l IH]; intros d; cbn; [rewrite app_nil_r; auto|]. rewrite IH, push_parts, <- app_assoc. auto. Qed.
Lemma fold_push_clean : forall l d, clean l -> fold_left push l d = d ++ alive l.
Proof.
  induction l as [|x l IH]; intros d C; cbn; [rewrite app_nil_r; auto|].
  rewrite IH by (intros y Hy; apply C; cbn; auto). unfold push. rewrite (C x) by (cbn; auto). rewrite <- app_assoc. auto.
Qed.

Lemma kind_cases : forall s, kind s = 0%nat \/ (kind s = 1%nat /\ s = [dot]) \/ (kind s = 2%nat /\ s = [dot; dot]).
Proof. intros s. unfold kind. destruct (list_eq_dec _ _ _); auto. destruct (list_eq_dec _ _ _); auto. Qed.

Lemma removeDots_run : forall n l fuel pre d, (length l <= n)%nat -> (length l < fuel)%nat -> wf (parts d ++ l) ->
  removeDots fuel (pre ++ flat nul (parts d ++ l)) (marks (zlen pre) (d ++ alive l)) (zlen d) =
  Some (marks (zlen pre) (fold_left push l d)).
Proof.
  induction n as [|n IH]; intros l fuel pre d L F W; (destruct fuel as [|fuel]; [lia|]); cbn [removeDots].
  - destruct l; [|cbn in L; lia]. cbn [alive map fold_left]. rewrite app_nil_r. rewrite marks_zlen.
    destruct (Z.ltb_spec (zlen d) (zlen d)); [lia|]. auto.
  - destruct l as [|x0 l0] eqn:EL.
    { cbn [alive map fold_left]. rewrite app_nil_r. rewrite marks_zlen. destruct (Z.ltb_spec (zlen d) (zlen d)); [lia|]. auto. }
    rewrite <- EL in *. assert (NL : l <> []) by (subst; discriminate). clear EL x0 l0.
    assert (Lz : 0 < zlen l) by (destruct l; [congruence|zlens; pose proof (zlen_nonneg l); lia]).
    rewrite marks_zlen, zlen_app. unfold alive at 1. rewrite zlen_map.
    destruct (Z.ltb_spec (zlen d) (zlen d + zlen l)); [|lia].
    rewrite marks_length.
    assert (OFF : zlen pre + zlen (flat nul (parts d)) = zlen (pre ++ flat nul (parts d))) by (zlens; lia).
    assert (EP : pre ++ flat nul (parts d ++ l) = (pre ++ flat nul (parts d)) ++ flat nul l) by (rewrite flat_app, app_assoc; auto).
    assert (EM : marks (zlen pre) (d ++ alive l) = marks (zlen pre) d ++ starts (zlen (pre ++ flat nul (parts d))) l) by (rewrite marks_app, starts_alive, OFF; auto).
    assert (EZ : zlen d = zlen (marks (zlen pre) d)) by (rewrite marks_zlen; auto).
    destruct (split_clean l) as [C|(l1 & [s k] & l2 & -> & C & K)].
    + pose proof (find_dots_run l (S (length (d ++ alive l))) (pre ++ flat nul (parts d)) (marks (zlen pre) d) []) as FD.
      rewrite app_nil_r in FD. rewrite EP, EM, EZ, FD; auto.
      2:{ rewrite app_length. unfold alive. rewrite map_length. lia. }
      2:{ eapply wf_app_r; eauto. }
      destruct l; [congruence|]. cbn [obind]. rewrite fold_push_clean by auto. rewrite marks_app, starts_alive, OFF. auto.
    + cbn [fst] in K.
      pose proof (find_dots_run l1 (S (length (d ++ alive (l1 ++ (s, k) :: l2)))) (pre ++ flat nul (parts d)) (marks (zlen pre) d) ((s, k) :: l2)) as FD.
      rewrite EP, EM, EZ, FD; auto.
      2:{ rewrite !app_length. unfold alive. rewrite map_length, app_length. lia. }
      2:{ eapply wf_app_r; eauto. }
      rewrite <- EP, <- EM, <- EZ. clear FD EP EM EZ OFF.
      replace (match l1 with
               | [] | _ => if Nat.eqb (kind s) 0 then find_dots (S (length (d ++ alive (l1 ++ (s, k) :: l2))) - length l1) (pre ++ flat nul (parts d ++ l1 ++ (s, k) :: l2)) (marks (zlen pre) (d ++ alive (l1 ++ (s, k) :: l2))) (zlen d + zlen l1) else Some (zlen d + zlen l1, kind s)
               end) with (Some (zlen d + zlen l1, kind s)) by (destruct (Nat.eqb_spec (kind s) 0); [congruence|]; destruct l1; auto).
      cbn [obind].
      (* after the clean segments *)
      set (d' := d ++ alive l1).
      assert (ED : d ++ alive (l1 ++ (s, k) :: l2) = d' ++ ((s, k), true) :: alive l2) by (unfold d'; rewrite alive_app, <- app_assoc; auto).
      assert (EI : zlen d + zlen l1 = zlen d') by (unfold d', alive; rewrite zlen_app, zlen_map; auto).
      assert (PD : parts d' = parts d ++ l1) by (unfold d'; rewrite parts_app, parts_alive; auto).
      assert (EW : parts d ++ l1 ++ (s, k) :: l2 = parts d' ++ (s, k) :: l2) by (rewrite PD, <- app_assoc; auto).
      assert (FP : fold_left push (l1 ++ (s, k) :: l2) d = fold_left push l2 (push d' (s, k))).
      { rewrite fold_left_app, (fold_push_clean l1) by auto. reflexivity. }
      rewrite EW in *. rewrite ED, EI, FP.
      assert (NEXT : forall d'' segs, push d' (s, k) = d'' -> segs = marks (zlen pre) (d'' ++ alive l2) ->
        removeDots fuel (pre ++ flat nul (parts d' ++ (s, k) :: l2)) segs (zlen d' + 1) = Some (marks (zlen pre) (fold_left push l2 (push d' (s, k))))).
      { intros d'' segs PE ->. assert (P2 : parts d'' = parts d' ++ [(s, k)]) by (rewrite <- PE; apply push_parts).
        replace (parts d' ++ (s, k) :: l2) with (parts d'' ++ l2) by (rewrite P2, <- app_assoc; auto).
        replace (zlen d' + 1) with (zlen d'').
        2:{ assert (Q : length (parts d'') = length (parts d' ++ [(s, k)])) by (rewrite P2; auto). unfold parts in Q. rewrite app_length, !map_length in Q. cbn in Q. unfold zlen. lia. }
        rewrite IH; [rewrite PE; auto| | |].
        - rewrite app_length in L. cbn in L. lia.
        - rewrite app_length in F. cbn in F. lia.
        - rewrite P2, <- app_assoc. auto. }
      destruct (kind_cases s) as [K0|[[K1 _]|[K2 _]]]; [congruence| |].
      * rewrite K1. rewrite zset_marks. cbn [obind].
        apply (NEXT (d' ++ [((s, k), false)])); [unfold push; cbn [fst]; rewrite K1; auto|rewrite <- app_assoc; auto].
      * rewrite K2.
        assert (MA : marks (zlen pre) (d' ++ ((s, k), true) :: alive l2) = marks (zlen pre) d' ++ marks (zlen pre + zlen (flat nul (parts d'))) (((s, k), true) :: alive l2)) by apply marks_app.
        destruct (last_alive d') as [A|(d1 & [t q] & d2 & E' & A)].
        -- rewrite MA. rewrite find_previous_dead; auto.
           2:{ rewrite app_length. cbn. unfold d'. rewrite app_length. lia. }
           cbn [obind]. change (0 <=? -1) with false. cbv iota. cbn [obind]. apply (NEXT (d' ++ [((s, k), true)])).
           ++ unfold push; cbn [fst]; rewrite K2. rewrite kill_dead; auto. intros y Hy; apply A; apply in_rev; auto.
           ++ rewrite <- app_assoc. rewrite <- MA. auto.
        -- rewrite MA, E'. rewrite find_previous_alive; auto.
           2:{ apply zlen_nonneg. }
           2:{ rewrite <- E'. assert (length d2 <= length d')%nat by (rewrite E', app_length; cbn; lia). rewrite app_length. lia. }
           rewrite <- E', <- MA. cbn [obind]. pose proof (zlen_nonneg d1). destruct (Z.leb_spec 0 (zlen d1)); [|lia].
           rewrite E', <- app_assoc. cbn [app]. rewrite marks_app. cbn [marks]. rewrite zget_mid by (rewrite marks_zlen; auto). cbn [obind].
           (* the array at segment t *)
           assert (EA : pre ++ flat nul (parts (d1 ++ ((t, q), true) :: d2) ++ (s, k) :: l2) =
                        (pre ++ flat nul (parts d1)) ++ t ++ repeat nul q ++ flat nul (parts d2 ++ (s, k) :: l2)).
           { rewrite parts_app. change (parts (((t, q), true) :: d2)) with ((t, q) :: parts d2). rewrite <- app_assoc. cbn [app].
             rewrite flat_app, flat_cons, <- app_assoc. auto. }
           assert (WT : t <> [] /\ ~ In slash t /\ ~ In nul t /\ (q = 0%nat -> parts d2 ++ (s, k) :: l2 = [])).
           { apply (wf_mid (parts d1)). rewrite E' in W. rewrite parts_app in W. rewrite <- app_assoc in W. exact W. }
           destruct WT as (T1 & T2 & T3 & T4).
           destruct q as [|q]. { exfalso. specialize (T4 eq_refl). destruct (parts d2); discriminate. }
           cbn [repeat app] in EA.
           replace (zlen pre + zlen (flat nul (parts d1))) with (zlen (pre ++ flat nul (parts d1))) by (zlens; lia).
           rewrite EA, is_dotdot_run by auto. rewrite <- EA. cbn [obind].
           assert (ES : marks (zlen pre) d1 ++ zlen (pre ++ flat nul (parts d1)) :: marks (zlen (pre ++ flat nul (parts d1)) + zlen t + Z.of_nat (S q)) (d2 ++ ((s, k), true) :: alive l2)
                        = marks (zlen pre) (d' ++ ((s, k), true) :: alive l2)).
           { rewrite E', <- app_assoc. cbn [app]. rewrite (marks_app d1). cbn [marks]. replace (zlen pre + zlen (flat nul (parts d1))) with (zlen (pre ++ flat nul (parts d1))) by (zlens; lia). auto. }
           rewrite ES. rewrite <- E'.
           destruct (Nat.eqb_spec (kind t) 2) as [T|T]; cbn [negb].
           ++ cbn [obind]. apply (NEXT (d' ++ [((s, k), true)])).
              ** unfold push; cbn [fst]; rewrite K2, E', kill_last by auto. cbn [fst]. rewrite T. auto.
              ** rewrite <- app_assoc. auto.
           ++ rewrite zset_marks. cbn [obind].
              replace (d' ++ ((s, k), false) :: alive l2) with (d1 ++ ((t, S q), true) :: d2 ++ ((s, k), false) :: alive l2) by (rewrite E', <- app_assoc; auto).
              rewrite zset_marks. cbn [obind]. apply (NEXT (d1 ++ ((t, S q), false) :: d2 ++ [((s, k), false)])).
              ** unfold push; cbn [fst]; rewrite K2, E', kill_last by auto. cbn [fst]. destruct (Nat.eqb_spec (kind t) 2); [congruence|].
                 rewrite rev_involutive, <- app_assoc. auto.
              ** rewrite <- !app_assoc. cbn [app]. rewrite <- app_assoc. auto.
Qed.
