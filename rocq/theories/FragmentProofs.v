(** Proofs about fragments. *)
From Verif Require Import Base Chars StrconvModel StrconvProofs FragmentModel FragmentSpec.
Open Scope Z_scope.

Lemma zslice_app_l : forall (a b : str), zslice (a ++ b) 0 (zlen a) = Some a.
Proof.
  intros a b. unfold zslice. replace ((0 <=? 0) && (0 <=? zlen a) && (zlen a <=? zlen (a ++ b))) with true.
  - rewrite Z.sub_0_r. unfold zlen. rewrite Nat2Z.id. cbn [Z.to_nat skipn]. rewrite firstn_app, Nat.sub_diag, firstn_all. cbn. rewrite app_nil_r. auto.
  - unfold zlen. rewrite app_length. lia.
Qed.
Lemma zslice_app_r : forall (a b : str), zslice (a ++ b) (zlen a) (zlen (a ++ b)) = Some b.
Proof.
  intros a b. unfold zslice. replace ((0 <=? zlen a) && (zlen a <=? zlen (a ++ b)) && (zlen (a ++ b) <=? zlen (a ++ b))) with true.
  - unfold zlen. rewrite Nat2Z.id, skipn_app, skipn_all, Nat.sub_diag. cbn [app skipn]. rewrite app_length. replace (Z.to_nat (Z.of_nat (length a + length b) - Z.of_nat (length a))) with (length b) by lia. rewrite firstn_all. auto.
  - unfold zlen. rewrite app_length. lia.
Qed.
Lemma zslice_mid : forall (a b c : str), zslice (a ++ b ++ c) (zlen a) (zlen a + zlen b) = Some b.
Proof.
  intros a b c. unfold zslice. replace ((0 <=? zlen a) && (zlen a <=? zlen a + zlen b) && (zlen a + zlen b <=? zlen (a ++ b ++ c))) with true.
  - unfold zlen. rewrite Nat2Z.id, skipn_app, skipn_all, Nat.sub_diag. cbn [app skipn]. replace (Z.to_nat (Z.of_nat (length a) + Z.of_nat (length b) - Z.of_nat (length a))) with (length b) by lia. rewrite firstn_app, Nat.sub_diag, firstn_all. cbn. rewrite app_nil_r. auto.
  - unfold zlen. rewrite !app_length. lia.
Qed.

Lemma index_of_spec : forall x l, In x l -> 0 <= index_of x l < zlen l /\ nth_error l (Z.to_nat (index_of x l)) = Some x.
Proof.
  intros x l. induction l as [|y l IH]; intros I; [destruct I|]. cbn [index_of]. unfold zlen. cbn [length]. destruct (Nat.eqb_spec x y) as [->|N].
  - split; [lia|]. reflexivity.
  - destruct I as [->|I]; [congruence|]. destruct (IH I) as [B E]. unfold zlen in B. destruct (Z.eqb_spec (index_of x l) (-1)); [lia|]. split; [lia|].
    replace (Z.to_nat (index_of x l + 1)) with (S (Z.to_nat (index_of x l))) by lia. exact E.
Qed.
Lemma zget_index : forall x l, In x l -> zget l (index_of x l) = Some x.
Proof. intros x l I. destruct (index_of_spec x l I) as [B E]. unfold zget. destruct (Z.ltb_spec (index_of x l) 0); [lia|auto]. Qed.

Lemma feature_named_ok : forall w o f, consistent w -> In f (features w o) -> feature_named w o (f_name w f) = Some f.
Proof.
  intros w o f C I. unfold feature_named. destruct (find _ (rev (features w o))) as [g|] eqn:E.
  - apply find_some in E. destruct E as [G E]. apply str_eqb_eq in E. apply in_rev in G. f_equal. eapply (names w C); eauto.
  - exfalso. eapply find_none in E; [|apply in_rev; rewrite rev_involutive; exact I]. cbn in E. rewrite str_eqb_refl in E. discriminate.
Qed.

Lemma last_digits : forall (a b : str), b <> [] -> last (a ++ b) 0 = last b 0.
Proof. intros a b N. induction a as [|x a IH]; cbn [app]; auto. destruct (a ++ b) eqn:E; [destruct a; cbn in E; congruence|]. rewrite <- IH. reflexivity. Qed.
Lemma last_in : forall (b : str), b <> [] -> In (last b 0) b.
Proof. intros b N. destruct (exists_last N) as (b' & x & ->). rewrite last_last. apply in_or_app. cbn. auto. Qed.
Lemma ascii_digit : forall w c, is_digit c = true -> digit w c = true.
Proof. intros w c H. unfold digit. replace (c <? 128) with true; auto. unfold is_digit in H. lia. Qed.
Lemma digits_no : forall s c, all_digits s -> is_digit c = false -> ~ In c s.
Proof. intros s c A D I. apply A in I. congruence. Qed.

(** *** Plain objects *)
Lemma plain_ok : forall w c f o, consistent w -> holds w c f o -> fine_name w f ->
  exists s, plain_segment w c f o = Done s /\ plain_for_segment w c s = Done (Some o) /\ ~ In 47 s.
Proof.
  intros w c f o C [I H] [NS FN]. unfold plain_segment. destruct (f_many w f) eqn:M.
  - destruct H as (l & G & IL & SZ). rewrite G. eexists. split; [reflexivity|]. destruct (index_of_spec o l IL) as [B E].
    destruct (itoa_digits (index_of o l)) as [AD NE]; [lia|]. set (d := itoa (index_of o l)) in *.
    change ((64 :: f_name w f) ++ [46] ++ d) with (64 :: f_name w f ++ 46 :: d). split.
    + unfold plain_for_segment. replace (64 :: f_name w f ++ 46 :: d) with ((64 :: f_name w f) ++ 46 :: d) by reflexivity.
      replace (last ((64 :: f_name w f) ++ 46 :: d) 0) with (last d 0) by (rewrite last_digits by discriminate; change (46 :: d) with ([46] ++ d); rewrite last_digits by auto; reflexivity).
      rewrite (ascii_digit w) by (apply AD, last_in; auto). rewrite last_index_app by (apply digits_no; auto; reflexivity).
      replace (zlen (64 :: f_name w f) =? -1) with false by (unfold zlen; lia).
      replace ((64 :: f_name w f) ++ 46 :: d) with (((64 :: f_name w f) ++ [46]) ++ d) by (rewrite <- app_assoc; reflexivity).
      replace (zlen (64 :: f_name w f) + 1) with (zlen ((64 :: f_name w f) ++ [46])) by (unfold zlen; rewrite app_length; cbn [length]; lia).
      rewrite zslice_app_r. cbn [of_option rbind]. rewrite <- app_assoc.
      replace ((64 :: f_name w f) ++ [46] ++ d) with ([64] ++ f_name w f ++ ([46] ++ d)) by reflexivity.
      replace (zlen (64 :: f_name w f)) with (zlen [64] + zlen (f_name w f)) by (unfold zlen; cbn [length]; lia).
      change 1 with (zlen [64]) at 1. rewrite zslice_mid. cbn [of_option rbind]. unfold eStructuralFeature. rewrite feature_named_ok by auto. cbn [of_option rbind].
      rewrite G. unfold d. rewrite atoi_itoa by lia. cbn [fst]. destruct (Z.ltb_spec (index_of o l) (zlen l)); [|lia]. rewrite zget_index by auto. reflexivity.
    + intros X. destruct X as [X|X]; [discriminate|]. apply in_app_or in X. destruct X as [X|[X|X]]; [auto|discriminate|]. apply AD in X. discriminate.
  - eexists. split; [reflexivity|]. split.
    + unfold plain_for_segment.
      assert (X : (if digit w (last (64 :: f_name w f) 0) then last_index 46 (64 :: f_name w f) else -1) = -1).
      { destruct FN as [FN|[FN|FN]]; [congruence| |].
        - rewrite last_index_none; [destruct (digit w _); auto|]. cbn. intros [X|X]; [discriminate|auto].
        - destruct (f_name w f) as [|x n] eqn:EN; [cbn; reflexivity|]. replace (last (64 :: x :: n) 0) with (last (x :: n) 0) by reflexivity. rewrite FN. auto. }
      rewrite X. cbn [Z.eqb]. change (64 :: f_name w f) with ([64] ++ f_name w f). change 1 with (zlen [64]). rewrite zslice_app_r. cbn [of_option rbind].
      unfold eStructuralFeature. rewrite feature_named_ok by auto. cbn [of_option rbind]. rewrite H. auto.
    + intros [X|X]; [discriminate|auto].
Qed.

(** *** Children of model elements *)
Lemma nth_child_before : forall w l o xs, In o xs -> same_label w l o = true -> nth_child w l (count_before w l o xs) xs = Some o.
Proof.
  intros w l o xs. induction xs as [|y xs IH]; intros I S; [destruct I|]. cbn [count_before nth_child].
  assert (NN : forall zs, 0 <= count_before w l o zs). { induction zs as [|z zs IHz]; cbn; [lia|]. destruct (Nat.eqb z o); [lia|]. destruct (same_label w l z); lia. }
  destruct (Nat.eqb_spec y o) as [->|N].
  - rewrite S. auto.
  - destruct I as [->|I]; [congruence|]. destruct (same_label w l y).
    + specialize (NN xs). destruct (Z.eqb_spec (1 + count_before w l o xs) 0); [lia|]. replace (1 + count_before w l o xs - 1) with (count_before w l o xs) by lia. auto.
    + rewrite Z.add_0_l. auto.
Qed.
Lemma before_bounds : forall w l o xs, 0 <= count_before w l o xs <= zlen xs.
Proof.
  intros w l o xs. induction xs as [|y xs IH]; [cbn; unfold zlen; cbn; lia|]. cbn [count_before]. unfold zlen in *. cbn [length]. destruct (Nat.eqb y o); [lia|]. destruct (same_label w l y); lia.
Qed.

Lemma before_count : forall w c o, label_of w o <> Other -> before w c o = count_before w (label_of w o) o (children w c).
Proof.
  intros w c o N. unfold before. induction (children w c) as [|y xs IH]; [reflexivity|]. cbn [until count_before].
  destruct (Nat.eq_dec y o) as [->|D]; [rewrite Nat.eqb_refl; reflexivity|].
  rewrite (proj2 (Nat.eqb_neq y o) D), <- IH. cbn [filter].
  assert (E : same_label w (label_of w o) y = if label_dec (label_of w y) (label_of w o) then true else false).
  { unfold same_label. destruct (label_dec (label_of w y) (label_of w o)) as [->|X].
    - destruct (label_of w o); [apply str_eqb_refl|apply str_eqb_refl|congruence].
    - destruct (label_of w o), (label_of w y); try reflexivity; apply str_eqb_neq; congruence. }
  rewrite E. destruct (label_dec _ _); unfold zlen; cbn [length]; lia.
Qed.

Lemma named_text : forall w c n count (NS : n = [37] \/ (forallb path_safe n = true)), 0 <= count < 2 ^ 63 -> (count = 0 -> no_count n) ->
  named_for_segment w c (if count >? 0 then n ++ [46] ++ itoa count else n) = Done (nth_child w (Named (if str_eqb n [37] then [] else n)) count (children w c)).
Proof.
  intros w c n count NS B NC. unfold named_for_segment.
  assert (FIN : (if str_eqb n [37] then [] else path_escape n) = (if str_eqb n [37] then [] else n)).
  { destruct NS as [->|NS]; [reflexivity|]. rewrite path_safe_escape by auto. auto. }
  destruct (Z.gtb_spec count 0) as [P|P].
  - destruct (itoa_digits count) as [AD NE]; [lia|]. set (d := itoa count) in *. cbn [app]. rewrite last_index_app by (apply digits_no; auto; reflexivity).
    replace (zlen n =? -1) with false by (unfold zlen; lia). rewrite zslice_app_l. cbn [of_option rbind].
    replace (n ++ 46 :: d) with ((n ++ [46]) ++ d) by (rewrite <- app_assoc; reflexivity). replace (zlen n + 1) with (zlen (n ++ [46])) by (unfold zlen; rewrite app_length; cbn [length]; lia).
    rewrite zslice_app_r. cbn [of_option rbind]. unfold d. rewrite atoi_itoa by lia. cbn [rbind]. cbv zeta. rewrite FIN. auto.
  - assert (count = 0) by lia. subst count. specialize (NC eq_refl).
    destruct (last_index_cases 46 n) as [[E I]|(a & b & E & I & L)].
    + rewrite E. change (-1 =? -1) with true. cbn [rbind]. cbv zeta. rewrite FIN. auto.
    + rewrite L. replace (zlen a =? -1) with false by (unfold zlen; lia). specialize (NC a b E I).
      replace (zslice n 0 (zlen a)) with (Some a) by (rewrite E, zslice_app_l; auto). cbn [of_option rbind].
      replace (zslice n (zlen a + 1) (zlen n)) with (Some b).
      2: { rewrite E. replace (a ++ 46 :: b) with ((a ++ [46]) ++ b) by (rewrite <- app_assoc; reflexivity). replace (zlen a + 1) with (zlen (a ++ [46])) by (unfold zlen; rewrite app_length; cbn [length]; lia). rewrite zslice_app_r. auto. }
      cbn [of_option rbind]. destruct (atoi b) as [i ok]. cbn in NC. subst ok. cbn [rbind]. cbv zeta. rewrite FIN. auto.
Qed.

Lemma count_text_head : forall n count, n <> [] -> exists x r, (if count >? 0 then n ++ [46] ++ itoa count else n) = x :: r /\ x = hd 0 n.
Proof. intros [|x n] count N; [congruence|]. destruct (count >? 0); cbn; eauto. Qed.
Lemma count_no_slash : forall n count, 0 <= count -> ~ In 47 n -> ~ In 47 (if count >? 0 then n ++ [46] ++ itoa count else n).
Proof.
  intros n count B H I. destruct (count >? 0); auto. apply in_app_or in I. destruct I as [I|[I|I]]; [auto|discriminate|]. destruct (itoa_digits count B) as [A _]. apply A in I. discriminate.
Qed.

Lemma element_ok : forall w c f o, In o (children w c) -> zlen (children w c) < 2 ^ 63 -> (label_of w o = Other -> consistent w /\ holds w c f o) -> model_element w c = true -> addressable w c f o ->
  exists s, element_segment w c f o = Done s /\ element_for_segment w c s = Done (Some o) /\ ~ In 47 s.
Proof.
  intros w c f o OC SZ CH ME A. unfold addressable in A. rewrite ME in A. unfold element_segment.
  pose proof (before_count w c o) as BC.
  destruct (label_of w o) as [n|src|] eqn:L; try (rewrite BC in A by discriminate).
  - destruct A as (PS & HD & NC). pose proof (before_bounds w (Named n) o (children w c)) as B. set (count := count_before w (Named n) o (children w c)) in *.
    assert (SL : same_label w (Named n) o = true) by (unfold same_label; rewrite L; apply str_eqb_refl).
    pose proof (nth_child_before w (Named n) o (children w c) OC SL) as NTH. fold count in NTH.
    assert (SF : ~ In 47 n). { intros I. rewrite forallb_forall in PS. apply PS in I. discriminate. }
    destruct n as [|x n].
    + eexists. split; [reflexivity|]. split.
      * assert (ES : element_for_segment w c (if count >? 0 then [37] ++ [46] ++ itoa count else [37]) = named_for_segment w c (if count >? 0 then [37] ++ [46] ++ itoa count else [37])).
        { destruct (Z.gtb_spec count 0); [|reflexivity]. unfold element_for_segment. cbn [app]. change (37 :: 46 :: itoa count) with ([] ++ 37 :: (46 :: itoa count)). rewrite last_index_app; [reflexivity|].
          intros [X|X]; [discriminate|]. destruct (itoa_digits count) as [AD _]; [lia|]. apply AD in X. discriminate. }
        rewrite ES, named_text; [cbn; rewrite NTH; auto|auto|lia|]. intros _ a b E. destruct a as [|? [|? ?]]; cbn in E; discriminate.
      * apply count_no_slash; [lia|]. cbn. intuition discriminate.
    + assert (P37 : x <> 37) by (intros ->; cbn in PS; discriminate). cbn [hd] in HD.
      rewrite path_safe_escape by auto. eexists. split; [reflexivity|]. split.
      * assert (ES : element_for_segment w c (if count >? 0 then (x :: n) ++ [46] ++ itoa count else x :: n) = named_for_segment w c (if count >? 0 then (x :: n) ++ [46] ++ itoa count else x :: n)).
        { destruct (count_text_head (x :: n) count) as (y & r & E & ->); [discriminate|]. rewrite E. cbn [hd]. clear -P37 HD. unfold element_for_segment.
          destruct x as [|p|p]; auto. destruct p as [p|p|]; auto; destruct p as [p|p|]; auto; destruct p as [p|p|]; auto; destruct p as [p|p|]; auto; destruct p as [p|p|]; auto; destruct p as [p|p|]; auto; try (destruct p; auto); exfalso; auto. }
        rewrite ES, named_text; [|auto|lia|auto]. rewrite (proj2 (str_eqb_neq _ _)) by congruence. rewrite NTH. auto.
      * apply count_no_slash; [lia|auto].
  - destruct A as (BY & P). pose proof (before_bounds w (Annotation src) o (children w c)) as B. set (count := count_before w (Annotation src) o (children w c)) in *.
    assert (SL : same_label w (Annotation src) o = true) by (unfold same_label; rewrite L; apply str_eqb_refl).
    pose proof (nth_child_before w (Annotation src) o (children w c) OC SL) as NTH. fold count in NTH.
    replace (count >? 0) with true by lia. destruct (itoa_digits count) as [AD NE]; [lia|].
    set (e := match src with [] => [37] | _ => path_escape src end). eexists. split; [reflexivity|].
    assert (ND : ~ In 37 (46 :: itoa count)). { intros [X|X]; [discriminate|]. apply AD in X. discriminate. }
    assert (LI : last_index 37 ((([37] ++ e ++ [37]) ++ [46] ++ itoa count)) = zlen ([37] ++ e)).
    { replace (([37] ++ e ++ [37]) ++ [46] ++ itoa count) with (([37] ++ e) ++ 37 :: (46 :: itoa count)) by (rewrite <- !app_assoc; reflexivity). apply last_index_app. auto. }
    split.
    + unfold element_for_segment. cbn [app] in *. rewrite LI.
      replace (zlen (37 :: e) =? 0) with false by (unfold zlen; cbn [length]; lia).
      replace (37 :: (e ++ [37]) ++ 46 :: itoa count) with ((37 :: e ++ [37]) ++ 46 :: itoa count) by reflexivity.
      replace (zget ((37 :: e ++ [37]) ++ 46 :: itoa count) (zlen (37 :: e) + 1)) with (Some 46).
      2: { unfold zget. replace (zlen (37 :: e) + 1 <? 0) with false by (unfold zlen; lia). rewrite nth_error_app2 by (unfold zlen; cbn [length]; rewrite app_length; cbn; lia).
           replace (Z.to_nat (zlen (37%Z :: e) + 1)%Z - length (37%Z :: e ++ [37%Z]))%nat with 0%nat by (unfold zlen; cbn [length]; rewrite app_length; cbn; lia). reflexivity. }
      cbn [of_option rbind Z.eqb]. change (46 =? 46) with true. rewrite orb_true_r.
      replace (zslice ((37 :: e ++ [37]) ++ 46 :: itoa count) 1 (zlen (37 :: e))) with (Some e).
      2: { symmetry. replace ((37 :: e ++ [37]) ++ 46 :: itoa count) with ([37] ++ e ++ ([37] ++ 46 :: itoa count)) by (cbn; rewrite <- app_assoc; reflexivity).
           replace (zlen (37 :: e)) with (zlen [37] + zlen e) by (unfold zlen; cbn [length]; lia). change 1 with (zlen [37]) at 1. apply zslice_mid. }
      cbn [of_option rbind].
      replace (zslice ((37 :: e ++ [37]) ++ 46 :: itoa count) (zlen (37 :: e) + 2) (zlen ((37 :: e ++ [37]) ++ 46 :: itoa count))) with (Some (itoa count)).
      2: { symmetry. replace ((37 :: e ++ [37]) ++ 46 :: itoa count) with ((37 :: e ++ [37; 46]) ++ itoa count) by (cbn; rewrite <- !app_assoc; reflexivity).
           replace (zlen (37 :: e) + 2) with (zlen (37 :: e ++ [37; 46])) by (unfold zlen; cbn [length]; rewrite app_length; cbn [length]; lia). apply zslice_app_r. }
      cbn [of_option rbind]. rewrite atoi_itoa by lia. change ((46 =? 46)%positive) with true. cbn [rbind].
      replace (if str_eqb e [37] then [] else path_unescape e) with src; [rewrite NTH; auto|].
      unfold e. destruct src as [|x s]; [reflexivity|]. rewrite unescape_escape by exact BY. destruct (str_eqb (path_escape (x :: s)) [37]) eqn:EQ; auto.
      exfalso. apply str_eqb_eq in EQ. unfold path_escape in EQ. cbn [flat_map] in EQ. destruct (path_safe x) eqn:PX; cbn [app] in EQ; [|discriminate]. injection EQ as -> _. discriminate.
    + intros I. apply in_app_or in I. destruct I as [I|[I|I]]; [|discriminate|apply AD in I; discriminate].
      cbn [app] in I. destruct I as [I|I]; [discriminate|]. apply in_app_or in I. destruct I as [I|[I|[]]]; [|discriminate]. unfold e in I.
      destruct src; [destruct I as [I|[]]; discriminate|]. eapply path_escape_no_slash; [|exact I]. exact BY.
  - destruct (CH eq_refl) as [C HO].
    destruct (plain_ok w c f o C HO A) as (s & S1 & S2 & S3). exists s. split; [auto|]. split; [|auto]. 
    unfold element_for_segment. unfold plain_for_segment in S2. destruct s as [|x s]; [discriminate|]. clear -S2.
    destruct x as [|p|p]; try discriminate. destruct p as [p|p|]; try discriminate; destruct p as [p|p|]; try discriminate; destruct p as [p|p|]; try discriminate; destruct p as [p|p|]; try discriminate; destruct p as [p|p|]; try discriminate; destruct p as [p|p|]; try discriminate; try (destruct p; try discriminate). exact S2.
Qed.

(** a segment leads from the container to the object *)
Lemma segment_ok : forall w c f o, consistent w -> container w o = Some c -> containing w o = Some f -> addressable w c f o ->
  exists s, EURIFragmentSegment w c f o = Done s /\ EObjectForFragmentSegment w c s = Done (Some o) /\ ~ In 47 s.
Proof.
  intros w c f o C CT CF A. unfold EURIFragmentSegment, EObjectForFragmentSegment. destruct (model_element w c) eqn:ME.
  - destruct (owned w C o c CT ME) as [OC SZ]. apply element_ok; auto. intros _. split; auto. destruct (held w C o c CT) as (f' & CF' & HO). rewrite CF in CF'. injection CF' as <-. auto.
  - destruct (held w C o c CT) as (f' & CF' & HO). rewrite CF in CF'. injection CF' as <-. unfold addressable in A. rewrite ME in A. apply plain_ok; auto.
Qed.

(** *** Paths *)
Lemma follow_app : forall w p q x y, follow w x p = Done y -> follow w x (p ++ q) = follow w y q.
Proof.
  intros w p. induction p as [|s p IH]; intros q x y H; cbn [app].
  - cbn in H. destruct x; injection H as <-; auto.
  - cbn [follow] in *. destruct x as [o|]; [|injection H as <-; destruct q; auto]. destruct (EObjectForFragmentSegment w o s); try discriminate. cbn [rbind] in *. apply IH. auto.
Qed.

Lemma climb_ok : forall w o, consistent w -> id_for_object w o = [] -> forall x, addressable_path w x -> direct w x = false -> forall path,
  exists n r p, direct w r = true /\ (forall fuel, (n <= fuel)%nat -> climb w fuel o x [] path = Done (true, r, [], p ++ path)) /\
    follow w (Some r) p = Done (Some x) /\ forall s, In s p -> ~ In 47 s.
Proof.
  intros w o C ID x A. induction A as [x D|x c f D CT CF AD A IH]; intros D' path; [congruence|].
  destruct (segment_ok w c f x C CT CF AD) as (s & S1 & S2 & S3). destruct (direct w c) eqn:DC.
  - exists 1%nat, c, [s]. split; [auto|]. split; [|split].
    + intros [|fuel] F; [lia|]. cbn [climb]. rewrite CT, ID, CF. cbn [of_option rbind]. rewrite S1. cbn [rbind]. rewrite DC. auto.
    + cbn [follow]. rewrite S2. reflexivity.
    + intros y [<-|[]]. auto.
  - destruct (IH eq_refl (s :: path)) as (n & r & p & R1 & R2 & R3 & R4). exists (S n), r, (p ++ [s]). split; [auto|]. split; [|split].
    + intros [|fuel] F; [lia|]. cbn [climb]. rewrite CT, ID, CF. cbn [of_option rbind]. rewrite S1. cbn [rbind]. rewrite DC, R2 by lia. rewrite <- app_assoc. auto.
    + rewrite (follow_app _ _ _ _ _ R3). cbn [follow]. rewrite S2. reflexivity.
    + intros y I. apply in_app_or in I. destruct I as [I|[<-|[]]]; auto.
Qed.

Lemma root_ok : forall w r, consistent w -> direct w r = true -> object_for_root_segment w (root_segment w r) = Some r /\ ~ In 47 (root_segment w r).
Proof.
  intros w r C D. apply (roots w C) in D. pose proof (size w C) as SZ. destruct (index_of_spec r (contents w) D) as [B E]. unfold root_segment. destruct (Z.gtb_spec (zlen (contents w)) 1) as [G|G].
  - destruct (itoa_digits (index_of r (contents w))) as [A NE]; [lia|]. destruct (itoa (index_of r (contents w))) as [|x s] eqn:ES; [congruence|]. split.
    + assert (X : x <> 63). { intros ->. specialize (A 63 ltac:(cbn; auto)). discriminate. }
      assert (F : object_for_root_segment w (x :: s) = if (0 <=? fst (atoi (x :: s))) && (fst (atoi (x :: s)) <? zlen (contents w)) then nth_error (contents w) (Z.to_nat (fst (atoi (x :: s)))) else None).
      { unfold object_for_root_segment. destruct x as [|p|p]; auto. destruct p as [p|p|]; auto; destruct p as [p|p|]; auto; destruct p as [p|p|]; auto; destruct p as [p|p|]; auto; destruct p as [p|p|]; auto; destruct p as [p|p|]; auto. exfalso. auto. }
      rewrite F, <- ES, atoi_itoa by lia. cbn [fst]. replace ((0 <=? index_of r (contents w)) && (index_of r (contents w) <? zlen (contents w))) with true by lia. exact E.
    + intros I. apply A in I. discriminate.
  - split; [|cbn; auto]. unfold object_for_root_segment. replace ((0 <=? 0) && (0 <? zlen (contents w))) with true by lia. rewrite <- E. f_equal. lia.
Qed.

Lemma fine_id_read : forall w id, fine_id id -> GetEObject w id = Done (object_by_id w id).
Proof.
  intros w id (NE & H1 & H2). destruct id as [|c id]; [congruence|]. cbn [hd] in H1. unfold GetEObject.
  assert (X : (last (c :: id) 0 =? 63) = false) by lia. rewrite X.
  destruct c as [|p|p]; auto. destruct p as [p|p|]; auto; destruct p as [p|p|]; auto; destruct p as [p|p|]; auto; destruct p as [p|p|]; auto; destruct p as [p|p|]; auto; destruct p as [p|p|]; auto. exfalso. auto.
Qed.

Lemma fragment_ok : forall w o, consistent w -> within w o -> has_id w o \/ addressable_path w o -> identified w o ->
  exists n s, (forall fuel, (n <= fuel)%nat -> GetURIFragment w fuel o = Done s) /\ GetEObject w s = Done (Some o).
Proof.
  intros w o C W A ID. unfold identified in ID. destruct (object_id w o) as [|c id] eqn:OI.
  - assert (IDS : id_for_object w o = [] \/ (fine_id (id_for_object w o) /\ object_by_id w (id_for_object w o) = Some o)).
    { unfold id_for_object, object_by_id. destruct (manager w) as [[g fi]|]; [|auto]. destruct (g o) as [i|] eqn:G; [|auto]. destruct (ID i eq_refl) as [->|[F1 F2]]; auto. }
    destruct IDS as [IDS|[FI OB]].
    + assert (AP : addressable_path w o). { destruct A as [[A|(g & fi & i & M & G & NE)]|A]; auto; [congruence|]. unfold id_for_object in IDS. rewrite M, G in IDS. congruence. }
      destruct (direct w o) eqn:D.
      * exists 0%nat, (47 :: root_segment w o). split.
        -- intros fuel _. unfold GetURIFragment. rewrite OI, D, IDS. auto.
        -- destruct (root_ok w o C D) as [R1 R2]. unfold GetEObject. change (47 :: root_segment w o) with ([] ++ 47 :: root_segment w o). rewrite split_app by (cbn; auto). cbn [tl].
           rewrite split_one by auto. cbn [object_by_path follow]. rewrite R1. auto.
      * destruct (climb_ok w o C IDS o AP D []) as (n & r & p & R1 & R2 & R3 & R4). exists n, (join [47] ([] :: root_segment w r :: p)). split.
        -- intros fuel F. unfold GetURIFragment. rewrite OI, D, R2 by auto. cbn [rbind negb]. rewrite app_nil_r. auto.
        -- destruct (root_ok w r C R1) as [Q1 Q2]. assert (SP : split 47 (join [47] ([] :: root_segment w r :: p)) = [] :: root_segment w r :: p).
           { apply split_join; [discriminate|]. intros x [<-|[<-|I]]; auto. }
           assert (HE : exists t, join [47] ([] :: root_segment w r :: p) = 47 :: t). { rewrite join_cons by discriminate. cbn. eauto. }
           destruct HE as (t & HE). rewrite HE in *. unfold GetEObject. rewrite SP. cbn [tl object_by_path]. rewrite Q1. auto.
    + set (i := id_for_object w o) in *.
      assert (NI : exists x y, i = x :: y). { destruct FI as [NE _]. destruct i; [congruence|eauto]. } destruct NI as (x & y & NI).
      assert (GE : GetEObject w i = Done (Some o)) by (rewrite fine_id_read by auto; rewrite OB; auto).
      destruct (direct w o) eqn:D.
      * exists 0%nat, i. split; [|auto]. intros fuel _. unfold GetURIFragment. rewrite OI, D. fold i. rewrite NI. auto.
      * assert (GO : forall z, within w z -> direct w z = false -> exists n r, forall fuel, (n <= fuel)%nat -> forall j, climb w fuel o z j [] = Done (true, r, i, [])).
        { intros z Z. induction Z as [z DZ|z cz CZ Z IHZ]; intros DZ'; [congruence|]. destruct (direct w cz) eqn:DC.
          - exists 1%nat, cz. intros [|fuel] F j; [lia|]. cbn [climb]. rewrite CZ. fold i. rewrite NI. cbn [rbind]. rewrite DC. auto.
          - destruct (IHZ eq_refl) as (n & r & H). exists (S n), r. intros [|fuel] F j; [lia|]. cbn [climb]. rewrite CZ. fold i. rewrite NI. cbn [rbind]. rewrite DC. rewrite <- NI. apply H. lia. }
        destruct (GO o W D) as (n & r & H). exists n, i. split; [|auto]. intros fuel F. unfold GetURIFragment. rewrite OI, D, H by auto. cbn [rbind negb]. rewrite NI. auto.
  - exists 0%nat, (c :: id). split.
    + intros fuel _. unfold GetURIFragment. rewrite OI. auto.
    + destruct ID as [FI ID]. rewrite fine_id_read by auto. f_equal. unfold object_by_id. destruct (manager w) as [[g fi]|]; [auto|]. destruct ID as [IN UN].
      destruct (find (fun o0 => str_eqb (c :: id) (object_id w o0)) (all_contents w)) as [z|] eqn:E.
      * apply find_some in E. destruct E as [E1 E2]. apply str_eqb_eq in E2. f_equal. apply UN; auto.
      * eapply find_none in E; [|exact IN]. cbn in E. rewrite OI, str_eqb_refl in E. discriminate.
Qed.

(** *** Objects which are not in the resource *)
Lemma foreign_ok : forall w o n s, ~ has_id w o -> ~ within w o -> GetURIFragment w n o = Done s -> GetEObject w s = Done None.
Proof.
  intros w o n s NI NW H.
  assert (OI : object_id w o = []). { destruct (object_id w o) eqn:E; auto. exfalso. apply NI. left. congruence. }
  assert (D : direct w o = false). { destruct (direct w o) eqn:E; auto. exfalso. apply NW. constructor. auto. }
  unfold GetURIFragment in H. rewrite OI, D in H.
  destruct (climb w n o o [] []) as [[[[b x] i] p]| |] eqn:E; [|discriminate|discriminate]. cbn [rbind] in H.
  assert (B : b = false).
  { destruct b; auto. exfalso. assert (G : forall n y i p p' x i', climb w n o y i p = Done (true, x, i', p') -> within w y).
    { clear. induction n as [|n IH]; intros y i p p' x i' H; [discriminate|]. cbn [climb] in H. destruct (container w y) as [c|] eqn:CY; [|discriminate].
      match type of H with rbind ?r _ = _ => destruct r as [q| |] eqn:R end; try discriminate. cbn [rbind] in H. destruct (direct w c) eqn:DC.
      - apply in_child with c; auto. constructor. auto.
      - apply in_child with c; auto. eapply IH. exact H. }
    apply G in E. auto. }
  subst b. cbn [negb] in H. injection H as <-. vm_compute. unfold GetEObject. reflexivity.
Qed.

(** *** Relative paths *)
Lemma get_segments_app : forall w p q x y, get_segments w x p = Done y -> get_segments w x (p ++ q) = get_segments w y q.
Proof.
  intros w p. induction p as [|s p IH]; intros q x y H; cbn [app get_segments] in *.
  - injection H as <-. auto.
  - destruct (EObjectForFragmentSegment w x s) as [[o|]| |]; cbn [rbind] in *; try discriminate. apply IH. auto.
Qed.
(** [n] steps lead from [o] to [a] for the first time *)
Inductive steps (w : world) (a : nat) : nat -> nat -> Prop :=
| st_one o : container w o = Some a -> steps w a 1 o
| st_more n o c : c <> a -> container w o = Some c -> steps w a n c -> steps w a (S n) o.
Lemma steps_unique : forall w a n o, steps w a n o -> forall m, steps w a m o -> m = n.
Proof.
  intros w a n o H. induction H as [o C|n o c N C S IH]; intros m H'; inversion H'; subst; try congruence.
  f_equal. apply IH. congruence.
Qed.
Lemma below_steps : forall w a o, below w a o -> exists n, steps w a n o.
Proof. intros w a o H. induction H as [o f C F A|o c f N C F A B [n ST]]; [exists 1%nat; constructor; auto|exists (S n); eapply st_more; eauto]. Qed.

Lemma relative_loop_ok : forall w a, consistent w -> forall o, below w a o -> forall n, steps w a n o -> forall visited path,
  (forall v, In v visited -> exists m, steps w a m v /\ (n < m)%nat) ->
  exists p, p <> [] /\ (forall fuel, (n <= fuel)%nat -> relative_loop w fuel (Some a) o visited path = Done (a, p ++ path)) /\
    get_segments w a p = Done o /\ forall s, In s p -> ~ In 47 s.
Proof.
  intros w a C o B. induction B as [o f CT CF A|o c f N CT CF A B IH]; intros n ST visited path V.
  - destruct (segment_ok w a f o C CT CF A) as (s & S1 & S2 & S3). exists [s]. split; [discriminate|]. split; [|split].
    + intros [|fuel] F; [inversion ST; subst; lia|]. cbn [relative_loop]. rewrite CT.
      destruct (existsb (Nat.eqb o) visited) eqn:EX. { apply existsb_exists in EX. destruct EX as (v & I & E). apply Nat.eqb_eq in E. subst v. destruct (V o I) as (m & M & L). pose proof (steps_unique _ _ _ _ ST _ M). lia. }
      rewrite CF. cbn [of_option rbind]. rewrite S1. cbn [rbind]. rewrite Nat.eqb_refl. auto.
    + cbn [get_segments]. rewrite S2. reflexivity.
    + intros y [<-|[]]. auto.
  - destruct (segment_ok w c f o C CT CF A) as (s & S1 & S2 & S3).
    assert (X : exists n', n = S n' /\ steps w a n' c). { inversion ST; subst; [congruence|]. eexists. split; [reflexivity|]. congruence. }
    destruct X as (n' & -> & ST').
    destruct (IH n' ST' (o :: visited) (s :: path)) as (p & P1 & P2 & P3 & P4).
    { intros v [<-|I]; [exists (S n'); split; [auto|lia]|]. destruct (V v I) as (m & M & L). exists m. split; [auto|lia]. }
    exists (p ++ [s]). split; [destruct p; discriminate|]. split; [|split].
    + intros [|fuel] F; [lia|]. cbn [relative_loop]. rewrite CT.
      destruct (existsb (Nat.eqb o) visited) eqn:EX. { apply existsb_exists in EX. destruct EX as (v & I & E). apply Nat.eqb_eq in E. subst v. destruct (V o I) as (m & M & L). pose proof (steps_unique _ _ _ _ ST _ M). lia. }
      rewrite CF. cbn [of_option rbind]. rewrite S1. cbn [rbind]. destruct (Nat.eqb_spec c a); [congruence|]. rewrite P2 by lia. rewrite <- app_assoc. auto.
    + rewrite (get_segments_app _ _ _ _ _ P3). cbn [get_segments]. rewrite S2. reflexivity.
    + intros y I. apply in_app_or in I. destruct I as [I|[<-|[]]]; auto.
Qed.
Lemma relative_ok : forall w a o, consistent w -> below w a o -> o <> a ->
  exists n s, (forall fuel, (n <= fuel)%nat -> getRelativeURIFragmentPath w fuel (Some a) o = Done s) /\ GetEObjectRelative w a s = Done o.
Proof.
  intros w a o C B N. destruct (below_steps w a o B) as (n & ST). destruct (relative_loop_ok w a C o B n ST [] []) as (p & P1 & P2 & P3 & P4); [intros v []|].
  exists n, (join [47] p). split.
  - intros fuel F. unfold getRelativeURIFragmentPath. destruct (Nat.eqb_spec o a); [congruence|]. rewrite P2 by auto. cbn [rbind]. rewrite Nat.eqb_refl, app_nil_r. auto.
  - unfold GetEObjectRelative. rewrite split_join by auto. auto.
Qed.

(** *** The first annotation with a source *)
Lemma first_annotation_panics : forall w c f o source, (forall x, In x source -> 0 <= x < 256) -> model_element w c = true -> label_of w o = Annotation source -> before w c o = 0 ->
  exists s, EURIFragmentSegment w c f o = Done s /\ EObjectForFragmentSegment w c s = Panics.
Proof.
  intros w c f o source BY ME L B. rewrite before_count in B by congruence. rewrite L in B. unfold EURIFragmentSegment, element_segment. rewrite ME, L, B. eexists. split; [reflexivity|].
  unfold EObjectForFragmentSegment. rewrite ME. change (0 >? 0) with false. set (e := match source with [] => [37] | _ => path_escape source end).
  unfold element_for_segment. cbn [app]. change (37 :: e ++ [37]) with ((37 :: e) ++ 37 :: []). rewrite last_index_app by (cbn; auto).
  replace (zlen (37 :: e) =? 0) with false by (unfold zlen; cbn [length]; lia).
  assert (X : zget ((37 :: e) ++ [37]) (zlen (37 :: e) + 1) = None).
  { unfold zget. replace (zlen (37 :: e) + 1 <? 0) with false by (unfold zlen; lia). apply nth_error_None. unfold zlen. rewrite app_length. cbn [length]. lia. }
  change (zget (37 :: e ++ [37]) (zlen (37 :: e) + 1)) with (zget ((37 :: e) ++ [37]) (zlen (37 :: e) + 1)). rewrite X. reflexivity.
Qed.

Lemma relative_self : forall w a, model_element w a = false -> (forall fuel, getRelativeURIFragmentPath w fuel (Some a) a = Done []) /\ GetEObjectRelative w a [] = Panics.
Proof.
  intros w a M. split; [intros fuel; unfold getRelativeURIFragmentPath; rewrite Nat.eqb_refl; reflexivity|].
  unfold GetEObjectRelative. cbn [split get_segments]. unfold EObjectForFragmentSegment. rewrite M. reflexivity.
Qed.

Lemma element_round_trip : forall w c f o, In o (children w c) -> zlen (children w c) < 2 ^ 63 -> label_of w o <> Other -> model_element w c = true -> addressable w c f o ->
  exists s, EURIFragmentSegment w c f o = Done s /\ EObjectForFragmentSegment w c s = Done (Some o).
Proof.
  intros w c f o I Z L M A. destruct (element_ok w c f o I Z) as (s & E & F & _); auto; [intros X; congruence|].
  exists s. unfold EURIFragmentSegment, EObjectForFragmentSegment. rewrite M. auto.
Qed.
