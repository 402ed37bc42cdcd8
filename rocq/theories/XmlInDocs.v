(** The objects of a document: where each one is, who holds it, and which references it leaves. *)
From Verif Require Import Base Chars StrconvModel XmlTokenModel XmlInModel XmlInSpec XmlTree XmlInWrite XmlInRead.
From Verif Require XmlOutModel.
Open Scope Z_scope.

Section Docs.
Context {V : Type} (M : meta V) (op : options) (W : writing) (target : nat -> Prop).
Notation expect := (expect M op W).
Notation slots_objs := (slots_objs M op W).
Notation kids_objs := (kids_objs M op W).
Notation fits := (fits M op W target).
Notation valid := (valid M op W target).
Notation link := (nat * nat * nat * Z)%type.

(** object [k] has number [x] in [d], whose first number is [b] *)
Inductive occurs : dobj V -> nat -> option (nat * nat) -> nat -> dobj V -> option (nat * nat) -> Prop :=
| occ_here d b p : occurs d b p b d p
| occ_kid c id s1 f l1 k l2 s2 b p x k' p' :
    occurs k (S b + slots_total s1 + kids_size l1) (Some (b, f)) x k' p' ->
    occurs (DObj c id (s1 ++ (f, DKids (l1 ++ k :: l2)) :: s2)) b p x k' p'.

Definition head (lv : nat -> nat -> list nat -> rslot V) (k : dobj V) (x : nat) (p : option (nat * nat)) : robj V :=
  mkR (d_class k) (slot_at M lv x (slots_at (S x) (d_slots k))) p None (if op_manager op then Some (d_id k) else None).

Lemma total_app : forall s1 s2 : list (nat * dval V), slots_total (s1 ++ s2) = (slots_total s1 + slots_total s2)%nat.
Proof. induction s1 as [|fv s1 IH]; intros s2; cbn [app slots_total fold_right]; auto. fold (slots_total (s1 ++ s2)) (slots_total s1). rewrite IH. lia. Qed.
Lemma ksize_app : forall l1 l2 : list (dobj V), kids_size (l1 ++ l2) = (kids_size l1 + kids_size l2)%nat.
Proof. induction l1 as [|fv s1 IH]; intros s2; cbn [app kids_size fold_right]; auto. fold (kids_size (s1 ++ s2)) (kids_size s1). rewrite IH. lia. Qed.
Lemma slots_objs_app : forall lv a s1 s2 n, slots_objs lv a (s1 ++ s2) n = slots_objs lv a s1 n ++ slots_objs lv a s2 (n + slots_total s1)%nat.
Proof.
  intros lv a. induction s1 as [|fv s1 IH]; intros s2 n; cbn [app XmlInRead.slots_objs slots_total fold_right]; [rewrite Nat.add_0_r; auto|]. rewrite IH, app_assoc. fold (slots_total s1). do 2 f_equal. lia.
Qed.
Lemma kids_objs_app : forall lv a f s1 s2 n, kids_objs lv a f (s1 ++ s2) n = kids_objs lv a f s1 n ++ kids_objs lv a f s2 (n + kids_size s1)%nat.
Proof.
  intros lv a f. induction s1 as [|fv s1 IH]; intros s2 n; cbn [app XmlInRead.kids_objs kids_size fold_right]; [rewrite Nat.add_0_r; auto|]. rewrite IH, app_assoc. fold (kids_size s1). do 2 f_equal. lia.
Qed.
Lemma slots_links_app : forall (s1 s2 : list (nat * dval V)) n, slots_links (s1 ++ s2) n = slots_links s1 n ++ slots_links s2 (n + slots_total s1)%nat.
Proof.
  induction s1 as [|fv s1 IH]; intros s2 n; cbn [app slots_links slots_total fold_right]; [rewrite Nat.add_0_r; auto|]. rewrite IH, app_assoc. fold (slots_total s1). do 2 f_equal. lia.
Qed.
Lemma kids_links_app : forall (s1 s2 : list (dobj V)) n, kids_links (s1 ++ s2) n = kids_links s1 n ++ kids_links s2 (n + kids_size s1)%nat.
Proof.
  induction s1 as [|fv s1 IH]; intros s2 n; cbn [app kids_links kids_size fold_right]; [rewrite Nat.add_0_r; auto|]. rewrite IH, app_assoc. fold (kids_size s1). do 2 f_equal. lia.
Qed.
Lemma kids_at_app : forall (s1 s2 : list (dobj V)) n, kids_at n (s1 ++ s2) = kids_at n s1 ++ kids_at (n + kids_size s1)%nat s2.
Proof.
  induction s1 as [|fv s1 IH]; intros s2 n; cbn [app kids_at kids_size fold_right]; [rewrite Nat.add_0_r; auto|]. rewrite IH. fold (kids_size s1). do 2 f_equal. f_equal. lia.
Qed.
Lemma slots_at_app : forall (s1 s2 : list (nat * dval V)) n, slots_at n (s1 ++ s2) = slots_at n s1 ++ slots_at (n + slots_total s1)%nat s2.
Proof.
  induction s1 as [|[f v] s1 IH]; intros s2 n; cbn [app slots_at slots_total fold_right snd]; [rewrite Nat.add_0_r; auto|]. rewrite IH. fold (slots_total s1). do 2 f_equal. f_equal. lia.
Qed.
Lemma kids_at_length : forall (l : list (dobj V)) n, length (kids_at n l) = length l.
Proof. induction l; intros n; cbn; auto. Qed.
Lemma dsize_pos : forall d : dobj V, (0 < dsize d)%nat.
Proof. intros [c id s]. cbn. lia. Qed.

Lemma occ_nth : forall d b p x k p', occurs d b p x k p' -> (b <= x < b + dsize d)%nat /\ forall lv, nth_error (expect lv d b p) (x - b) = Some (head lv k x p').
Proof.
  intros d b p x k p' H. induction H as [d b p|c id s1 f l1 k l2 s2 b p x k' p' H [IH1 IH2]].
  - destruct d as [c id slots]. split; [pose proof (dsize_pos (DObj c id slots)); lia|]. intros lv. rewrite expect_eq, Nat.sub_diag. reflexivity.
  - rewrite dsize_total. cbn [d_slots]. rewrite total_app. cbn [slots_total fold_right snd vsize]. rewrite ksize_app. cbn [kids_size fold_right]. fold (kids_size l2). fold (slots_total s1) in IH1. split; [lia|].
    intros lv. rewrite expect_eq. replace (x - b)%nat with (S (x - S b)) by lia. cbn [nth_error]. rewrite slots_objs_app. rewrite nth_error_app2 by (rewrite (slots_objs_length M op W target); lia). rewrite (slots_objs_length M op W target).
    cbn [XmlInRead.slots_objs]. unfold slot_objs. cbn [snd fst]. rewrite nth_error_app1.
    2:{ rewrite (kids_objs_length M op W target), ksize_app. cbn [kids_size fold_right]. lia. }
    rewrite kids_objs_app. rewrite nth_error_app2 by (rewrite (kids_objs_length M op W target); lia). rewrite (kids_objs_length M op W target). cbn [XmlInRead.kids_objs]. rewrite nth_error_app1 by (rewrite (expect_len M op W target); lia).
    rewrite <- (IH2 lv). f_equal. lia.
Qed.

Lemma nth_app_cases : forall {A} (l l' : list A) i o, nth_error (l ++ l') i = Some o -> nth_error l i = Some o \/ (length l <= i)%nat /\ nth_error l' (i - length l) = Some o.
Proof. intros A l l' i o H. destruct (Nat.lt_ge_cases i (length l)); [rewrite nth_error_app1 in H by auto|rewrite nth_error_app2 in H by auto]; auto. Qed.

Definition foreign (o : robj V) : Prop := exists c u, o = mkR c (fun _ => Unset) None u None.
Lemma nth_occ : forall m d b p lv y o, (dsize d < m)%nat -> nth_error (expect lv d b p) y = Some o ->
  (exists k p', occurs d b p (b + y) k p' /\ o = head lv k (b + y) p') \/ (foreign o /\ forall lv', nth_error (expect lv' d b p) y = Some o).
Proof.
  induction m as [|m IH]; intros d b p lv y o L H; [lia|]. destruct d as [c id slots]. rewrite expect_eq in H. destruct y as [|y].
  - cbn [nth_error] in H. injection H as <-. left. exists (DObj c id slots), p. rewrite Nat.add_0_r. split; [constructor|]. reflexivity.
  - cbn [nth_error] in H.
    assert (X : forall s2 s1 y, slots = s1 ++ s2 -> nth_error (slots_objs lv b s2 (S b + slots_total s1)) y = Some o ->
      (exists k p', occurs (DObj c id slots) b p (S b + slots_total s1 + y) k p' /\ o = head lv k (S b + slots_total s1 + y) p') \/
      (foreign o /\ forall lv', nth_error (slots_objs lv' b s2 (S b + slots_total s1)) y = Some o)).
    { induction s2 as [|[f v] s2 IHs]; intros s1 z E HN; [destruct z; discriminate|]. cbn [XmlInRead.slots_objs] in HN. apply nth_app_cases in HN. cbn [snd] in HN. rewrite (slot_objs_length M op W target) in HN. cbn [snd] in HN.
      destruct HN as [HN|[LE HN]].
      - unfold slot_objs in HN. cbn [snd fst] in HN. destruct v as [|v|l|l|l|l]; try (destruct z; discriminate).
        + right. split.
          * rewrite nth_error_map in HN. destruct (nth_error l z) as [x|]; [|discriminate]. injection HN as <-. exists (proxy_class M W f (fst x)), (op_uri op (snd x)). reflexivity.
          * intros lv'. cbn [XmlInRead.slots_objs]. rewrite nth_error_app1 by (rewrite (slot_objs_length M op W target); cbn [snd vsize]; apply nth_error_Some; rewrite nth_error_map in HN; destruct (nth_error l z); [discriminate|discriminate HN]). unfold slot_objs. cbn [snd fst]. auto.
        + assert (Y : forall l2 l1 y, l = l1 ++ l2 -> nth_error (kids_objs lv b f l2 (S b + slots_total s1 + kids_size l1)) y = Some o ->
            (exists k p', occurs (DObj c id slots) b p (S b + slots_total s1 + kids_size l1 + y) k p' /\ o = head lv k (S b + slots_total s1 + kids_size l1 + y) p') \/
            (foreign o /\ forall lv', nth_error (kids_objs lv' b f l2 (S b + slots_total s1 + kids_size l1)) y = Some o)).
          { induction l2 as [|k l2 IHl]; intros l1 y' El HK; [destruct y'; discriminate|]. cbn [XmlInRead.kids_objs] in HK. apply nth_app_cases in HK. rewrite (expect_len M op W target) in HK. destruct HK as [HK|[LE HK]].
            - pose proof (kid_smaller target slots f l k c id) as KS. assert (KL : (dsize k < dsize (DObj c id slots))%nat) by (apply KS; [rewrite E; apply in_or_app; right; cbn; auto|rewrite El; apply in_or_app; right; cbn; auto]).
              destruct (IH k _ _ lv y' o ltac:(lia) HK) as [(k' & p' & OC & EO)|[FO FA]].
              + left. exists k', p'. split; auto. rewrite E, El. constructor. auto.
              + right. split; auto. intros lv'. cbn [XmlInRead.kids_objs]. rewrite nth_error_app1 by (rewrite (expect_len M op W target), <- (expect_len M op W target lv k (S b + slots_total s1 + kids_size l1) (Some (b, f))); apply nth_error_Some; congruence). auto.
            - specialize (IHl (l1 ++ [k]) (y' - dsize k)%nat). rewrite <- app_assoc in IHl. rewrite ksize_app in IHl. cbn [kids_size fold_right] in IHl. rewrite Nat.add_0_r in IHl. rewrite !Nat.add_assoc in IHl. fold (kids_size l1) in IHl.
              destruct (IHl El HK) as [(k' & p' & OC & EO)|[FO FA]].
              + left. exists k', p'. replace (S b + slots_total s1 + kids_size l1 + y')%nat with (S b + slots_total s1 + kids_size l1 + dsize k + (y' - dsize k))%nat by lia. auto.
              + right. split; auto. intros lv'. cbn [XmlInRead.kids_objs]. rewrite nth_error_app2 by (rewrite (expect_len M op W target); auto). rewrite (expect_len M op W target). auto. }
          specialize (Y l [] z eq_refl). cbn [kids_size fold_right] in Y. rewrite Nat.add_0_r in Y. destruct (Y HN) as [Y1|[FO FA]]; auto. right. split; auto. intros lv'. cbn [XmlInRead.slots_objs]. unfold slot_objs. cbn [snd fst]. rewrite nth_error_app1; auto. rewrite (kids_objs_length M op W target), <- (kids_objs_length M op W target lv b f l (S b + slots_total s1)). apply nth_error_Some. congruence.
      - specialize (IHs (s1 ++ [(f, v)]) (z - vsize v)%nat). rewrite <- app_assoc in IHs. rewrite total_app in IHs. cbn [slots_total fold_right snd] in IHs. rewrite Nat.add_0_r, !Nat.add_assoc in IHs. fold (slots_total s1) in IHs. destruct (IHs E HN) as [(k' & p' & OC & EO)|[FO FA]].
        + left. exists k', p'. replace (S b + slots_total s1 + z)%nat with (S b + slots_total s1 + vsize v + (z - vsize v))%nat by lia. auto.
        + right. split; auto. intros lv'. cbn [XmlInRead.slots_objs snd]. rewrite nth_error_app2 by (rewrite (slot_objs_length M op W target); auto). rewrite (slot_objs_length M op W target). auto. }
    specialize (X slots [] y eq_refl). cbn [slots_total fold_right] in X. rewrite Nat.add_0_r in X. destruct (X H) as [X1|[FO FA]].
    + left. replace (b + S y)%nat with (S b + y)%nat by lia. auto.
    + right. split; auto. intros lv'. rewrite expect_eq. cbn [nth_error]. auto.
Qed.

Lemma occ_valid : forall d b p x k p', occurs d b p x k p' -> valid d -> valid k.
Proof.
  intros d b p x k p' H. induction H as [d b p|c id s1 f l1 k l2 s2 b p x k' p' H IH]; intros VD; auto. apply IH.
  inversion VD as [? ? ? CO ND PI F]; subst. pose proof (F f (DKids (l1 ++ k :: l2)) ltac:(apply in_or_app; right; cbn; auto)) as FK. inversion FK as [| | | | |? ? ? FO' SH' CT' HK]; subst. apply HK. apply in_or_app. right. cbn. auto.
Qed.
Lemma occ_trans : forall d b p x k p', occurs d b p x k p' -> forall y k2 p2, occurs k x p' y k2 p2 -> occurs d b p y k2 p2.
Proof. intros d b p x k p' H. induction H as [d b p|c id s1 f l1 k l2 s2 b p x k' p' H IH]; intros y k2 p2 O; auto. constructor. auto. Qed.

(** who holds an object *)
Lemma occ_parent : forall d b p x k p', occurs d b p x k p' -> (x = b /\ k = d /\ p' = p) \/
  exists a ka pa f l n, occurs d b p a ka pa /\ p' = Some (a, f) /\ In (f, DKids l) (d_slots ka) /\ In (f, DKids l, n) (slots_at (S a) (d_slots ka)) /\ In x (kids_at n l).
Proof.
  intros d b p x k p' H. induction H as [d b p|c id s1 f l1 k l2 s2 b p x k' p' H IH]; [auto|]. right. destruct IH as [(-> & -> & ->)|(a & ka & pa & g & l & n & O & E & I1 & I2 & I3)].
  - do 6 eexists. split; [apply occ_here|]. cbn [d_slots]. split; [reflexivity|]. split; [apply in_or_app; right; left; reflexivity|]. split; [rewrite slots_at_app; apply in_or_app; right; left; reflexivity|].
    rewrite kids_at_app. apply in_or_app. right. left. reflexivity.
  - exists a, ka, pa, g, l, n. split; auto. constructor. auto.
Qed.

(** ** The references *)
Definition is_link (a f : nat) (x : link) : bool := let '(a', f', _, _) := x in Nat.eqb a a' && Nat.eqb f f'.
Lemma numbered_of : forall a f l p x, In x (numbered a f l p) -> exists k q, x = (a, f, k, q) /\ In k l.
Proof. intros a f. induction l as [|k l IH]; intros p x I; [destruct I|]. destruct I as [<-|I]; [exists k, p; cbn; auto|]. destruct (IH _ _ I) as (k' & q & E & J). exists k', q. cbn. auto. Qed.
Lemma slot_links_of : forall a (fv : nat * dval V) x, In x (slot_links a fv) -> exists l k q, snd fv = DLinks l /\ x = (a, fst fv, k, q) /\ In k l.
Proof. intros a [f v] x I. unfold slot_links in I. cbn [snd fst] in *. destruct v; try (destruct I; fail). destruct (numbered_of _ _ _ _ _ I) as (k & q & E & J). eauto 7. Qed.

Lemma links_occ : forall m d b par a f k p, (dsize d < m)%nat -> In (a, f, k, p) (d_links d b) -> exists kd p' l, occurs d b par a kd p' /\ In (f, DLinks l) (d_slots kd) /\ In k l.
Proof.
  induction m as [|m IH]; intros d b par a f k p L I; [lia|]. destruct d as [c id slots]. rewrite d_links_eq in I. apply in_app_or in I. destruct I as [I|I].
  - apply in_flat_map in I. destruct I as ([f' v] & I & J). destruct (slot_links_of _ _ _ J) as (l & k' & q & E & EX & K). injection EX as -> -> -> ->. cbn [snd fst] in *. subst v. exists (DObj c id slots), par, l. split; [constructor|]. auto.
  - assert (X : forall s2 s1, slots = s1 ++ s2 -> In (a, f, k, p) (slots_links s2 (S b + slots_total s1)) -> exists kd p' l, occurs (DObj c id slots) b par a kd p' /\ In (f, DLinks l) (d_slots kd) /\ In k l).
    { induction s2 as [|[g v] s2 IHs]; intros s1 E J; [destruct J|]. cbn [slots_links] in J. apply in_app_or in J. destruct J as [J|J].
      - unfold below_links in J. cbn [snd] in J. destruct v as [|v|l|l|l|l]; try (destruct J; fail).
        assert (Y : forall l2 l1, l = l1 ++ l2 -> In (a, f, k, p) (kids_links l2 (S b + slots_total s1 + kids_size l1)) -> exists kd p' l, occurs (DObj c id slots) b par a kd p' /\ In (f, DLinks l) (d_slots kd) /\ In k l).
        { induction l2 as [|x l2 IHl]; intros l1 El JK; [destruct JK|]. cbn [kids_links] in JK. apply in_app_or in JK. destruct JK as [JK|JK].
          - pose proof (kid_smaller target slots g l x c id) as KS. assert (KL : (dsize x < dsize (DObj c id slots))%nat) by (apply KS; [rewrite E; apply in_or_app; right; cbn; auto|rewrite El; apply in_or_app; right; cbn; auto]).
            destruct (IH x _ (Some (b, g)) _ _ _ _ ltac:(lia) JK) as (kd & p' & l' & O & I1 & I2). exists kd, p', l'. split; auto. rewrite E, El. constructor. auto.
          - apply (IHl (l1 ++ [x])); [rewrite <- app_assoc; auto|]. rewrite ksize_app. cbn [kids_size fold_right]. rewrite Nat.add_0_r, !Nat.add_assoc. auto. }
        apply (Y l []); auto. cbn [kids_size fold_right]. rewrite Nat.add_0_r. auto.
      - apply (IHs (s1 ++ [(g, v)])); [rewrite <- app_assoc; auto|]. rewrite total_app. cbn [slots_total fold_right snd]. rewrite Nat.add_0_r, !Nat.add_assoc. auto. }
    apply (X slots []); auto. cbn [slots_total fold_right]. rewrite Nat.add_0_r. auto.
Qed.
Lemma links_range : forall (d : dobj V) b a f k p, In (a, f, k, p) (d_links d b) -> (b <= a < b + dsize d)%nat.
Proof. intros d b a f k p I. destruct (links_occ _ d b None a f k p (Nat.lt_succ_diag_r _) I) as (kd & p' & l & O & _). apply (occ_nth _ _ _ _ _ _ O). Qed.
Lemma kids_links_range : forall (l : list (dobj V)) n a f k p, In (a, f, k, p) (kids_links l n) -> (n <= a < n + kids_size l)%nat.
Proof.
  induction l as [|x l IH]; intros n a f k p I; [destruct I|]. cbn [kids_links] in I. cbn [kids_size fold_right]. fold (kids_size l). apply in_app_or in I. destruct I as [I|I]; [apply links_range in I; lia|]. apply IH in I. lia.
Qed.
Lemma slots_links_range : forall (s : list (nat * dval V)) n a f k p, In (a, f, k, p) (slots_links s n) -> (n <= a < n + slots_total s)%nat.
Proof.
  induction s as [|[g v] s IH]; intros n a f k p I; [destruct I|]. cbn [slots_links snd] in I. cbn [slots_total fold_right snd]. fold (slots_total s). apply in_app_or in I. destruct I as [I|I]; [|apply IH in I; lia].
  unfold below_links in I. cbn [snd] in I. destruct v as [|v|l|l|l|l]; try (destruct I; fail). apply kids_links_range in I. cbn [vsize]. lia.
Qed.
Lemma no_link : forall a f l, (forall a' f' k p, In (a', f', k, p) l -> a' <> a) -> filter (is_link a f) l = [].
Proof.
  intros a f. induction l as [|[[[a' f'] k] p] l IH]; intros H; cbn [filter]; auto. cbn [is_link]. destruct (Nat.eqb_spec a a') as [->|N]; [exfalso; eapply H; cbn; eauto|]. cbn [andb]. apply IH. intros; eapply H; cbn; eauto.
Qed.
Lemma all_link : forall a f l p, filter (is_link a f) (numbered a f l p) = numbered a f l p.
Proof. intros a f. induction l as [|k l IH]; intros p; cbn [numbered filter]; auto. cbn [is_link]. rewrite !Nat.eqb_refl. cbn [andb]. rewrite IH. auto. Qed.
Lemma other_link : forall a f g l p, g <> f -> filter (is_link a f) (numbered a g l p) = [].
Proof. intros a f g. induction l as [|k l IH]; intros p N; cbn [numbered filter]; auto. cbn [is_link]. rewrite Nat.eqb_refl. replace (Nat.eqb f g) with false by (symmetry; apply Nat.eqb_neq; auto). cbn [andb]. apply IH. auto. Qed.
Lemma own_links : forall a f l slots, NoDup (map fst slots) -> In (f, DLinks l) slots -> filter (is_link a f) (flat_map (slot_links (V := V) a) slots) = numbered a f l 0.
Proof.
  intros a f l. induction slots as [|[g v] slots IH]; intros ND I; [destruct I|]. cbn [flat_map]. rewrite filter_app. cbn [map fst] in ND. inversion ND as [|? ? NI ND']; subst. destruct I as [E|I].
  - injection E as -> ->. unfold slot_links at 1. cbn [snd fst]. rewrite all_link. rewrite <- (app_nil_r (numbered a f l 0)) at 2. f_equal. clear - NI. induction slots as [|[g v] slots IH]; cbn [flat_map]; auto. cbn [map fst In] in NI. rewrite filter_app, IH by auto. rewrite app_nil_r. unfold slot_links. cbn [snd fst]. destruct v; auto. apply other_link. intros ->. auto.
  - rewrite (IH ND' I). rewrite <- (app_nil_l (numbered a f l 0)) at 2. f_equal. unfold slot_links. cbn [snd fst]. destruct v; auto. apply other_link. intros ->. apply NI. apply in_map_iff. exists (f, DLinks l). auto.
Qed.
Lemma occ_links : forall d b p x k p', occurs d b p x k p' -> valid d -> forall f l, In (f, DLinks l) (d_slots k) -> filter (is_link x f) (d_links d b) = numbered x f l 0.
Proof.
  intros d b p x k p' H. induction H as [d b p|c id s1 g l1 k l2 s2 b p x k' p' H IH]; intros VD f l I.
  - destruct VD as [c id slots CO ND PI F]. cbn [d_slots] in I. rewrite d_links_eq, filter_app, (own_links b f l slots) by auto. rewrite <- app_nil_r. f_equal. apply no_link. intros a' f' k q J. apply slots_links_range in J. lia.
  - assert (VK : valid k).
    { inversion VD as [? ? ? CO ND PI F]; subst. pose proof (F g (DKids (l1 ++ k :: l2)) ltac:(apply in_or_app; right; cbn; auto)) as FK. inversion FK as [| | | | |? ? ? FO' SH' CT' HK]; subst. apply HK. apply in_or_app. right. cbn. auto. }
    specialize (IH VK f l I). pose proof (proj1 (occ_nth _ _ _ _ _ _ H)) as R. rewrite d_links_eq, slots_links_app. cbn [slots_links snd]. unfold below_links. cbn [snd]. rewrite kids_links_app. cbn [kids_links]. rewrite !filter_app.
    rewrite IH. rewrite (no_link x f (flat_map _ _)), (no_link x f (slots_links s1 _)), (no_link x f (kids_links l1 _)), (no_link x f (kids_links l2 _)), (no_link x f (slots_links s2 _)).
    + cbn [app]. rewrite !app_nil_r. auto.
    + intros a' f' q w J. apply slots_links_range in J. cbn [vsize] in J. rewrite ksize_app in J. cbn [kids_size fold_right] in J. fold (kids_size l2) in J. lia.
    + intros a' f' q w J. apply kids_links_range in J. lia.
    + intros a' f' q w J. apply kids_links_range in J. lia.
    + intros a' f' q w J. apply slots_links_range in J. lia.
    + intros a' f' q w J. apply in_flat_map in J. destruct J as (fv & _ & J). destruct (slot_links_of _ _ _ J) as (? & ? & ? & _ & E & _). injection E as -> _ _ _. lia.
Qed.
End Docs.
