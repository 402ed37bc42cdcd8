(** Proofs about SqlValueModel. *)
From Coq Require Import String.
From Verif Require Import Base Chars StrconvModel StrconvProofs TimeModel TimeProofs FloatModel FloatProofs LiteralModel LiteralSpec LiteralProofs
  SqlSchemaModel SqlValueModel SqlValueSpec.
Local Open Scope string_scope.
Local Open Scope list_scope.
Local Open Scope Z_scope.

Lemma position_spec ls s i : position ls s = Some i ->
  exists l, nth_error ls i = Some l /\ getLiteral l = s /\ (forall j l', (j < i)%nat -> nth_error ls j = Some l' -> getLiteral l' <> s).
Proof.
  revert i. induction ls as [|l ls IH]; intros i E; cbn [position] in E; [discriminate|]. destruct (str_eqb (getLiteral l) s) eqn:El.
  - injection E as <-. apply str_eqb_eq in El. exists l. split; [reflexivity|split; [exact El|]]. intros j l' Hj. lia.
  - destruct (position ls s) as [i'|]; [|discriminate]. injection E as <-. destruct (IH i' eq_refl) as (l0 & E1 & E2 & E3).
    exists l0. split; [exact E1|split; [exact E2|]]. intros [|j] l' Hj En.
    + injection En as <-. intro K. rewrite <- K, str_eqb_refl in El. discriminate.
    + apply (E3 j); [lia|exact En].
Qed.
Lemma position_first ls i l : nth_error ls i = Some l -> (forall j l', (j < i)%nat -> nth_error ls j = Some l' -> getLiteral l' <> getLiteral l) ->
  position ls (getLiteral l) = Some i.
Proof.
  intro E. revert ls E. induction i as [|i IH]; intros [|l0 ls] E H; cbn in E; try discriminate.
  - injection E as ->. cbn. now rewrite str_eqb_refl.
  - cbn [position]. rewrite (proj2 (str_eqb_neq _ _)) by (apply (H O l0); [lia|reflexivity]).
    rewrite (IH ls E); [reflexivity|]. intros j l' Hj En. apply (H (S j) l'); [lia|exact En].
Qed.
Lemma position_find ls s l : getEEnumLiteralByLiteral ls s = Some l -> exists i, position ls s = Some i /\ nth_error ls i = Some l.
Proof.
  unfold getEEnumLiteralByLiteral. induction ls as [|l0 ls IH]; cbn [find position]; [discriminate|]. destruct (str_eqb (getLiteral l0) s).
  - intros [= <-]. exists O. split; reflexivity.
  - intro E. destruct (IH E) as (i & -> & En). exists (S i). split; [reflexivity|exact En].
Qed.

Lemma same_enum_eq e e' : same_enum e e' = true -> e = e'.
Proof.
  unfold same_enum. intro H. apply andb_true_iff in H. destruct H as [H1 H2]. apply Nat.eqb_eq in H1. apply str_eqb_eq in H2.
  destruct e, e'. cbn in *. now subst.
Qed.
Lemma id_of_in m e i n : id_of m e i = Some n -> In (e, i, n) m.
Proof.
  unfold id_of. destruct (find _ m) as [[[e' i'] n']|] eqn:E; [|discriminate]. intros [= <-]. apply find_some in E. destruct E as [Hin E].
  apply andb_true_iff in E. destruct E as [E1 E2]. apply same_enum_eq in E1. apply Nat.eqb_eq in E2. now subst.
Qed.
Lemma literal_of_in m e i n : literal_of m n = Some (e, i) -> In (e, i, n) m.
Proof.
  unfold literal_of. destruct (find _ m) as [[[e' i'] n']|] eqn:E; [|discriminate]. intros [= <- <-]. apply find_some in E. destruct E as [Hin E].
  apply Z.eqb_eq in E. now subst.
Qed.
Lemma next_id_fresh t r : In r t -> rid r < next_id t.
Proof.
  unfold next_id. induction t as [|r0 t IH]; [intros []|]. cbn [fold_right]. intros [->|H]; [lia|]. specialize (IH H). lia.
Qed.
Lemma key_unique t r r' : NoDup (map rid t) -> In r t -> In r' t -> rid r = rid r' -> r = r'.
Proof.
  induction t as [|r0 t IH]; [intros _ []|]. cbn [map]. intros N H H' E. inversion N as [|? ? N1 N2]; subst.
  destruct H as [->|H], H' as [->|H']; try reflexivity.
  - exfalso. apply N1. rewrite E. now apply in_map.
  - exfalso. apply N1. rewrite <- E. now apply in_map.
  - now apply IH.
Qed.

Section P.
  Context (literals : enum -> option (list literal)) (create : str -> option gval) (convert : gval -> option str) (en : enum) (default : gval).
  Context (sprint : gval -> str) (convert_sql : str -> sql -> sql).
  Local Notation consistent := (consistent literals).

  Lemma extends_refl t : extends t t.
  Proof. exists []. now rewrite app_nil_r. Qed.
  Lemma extends_in t t' r : extends t t' -> In r t -> In r t'.
  Proof. intros [u ->] H. apply in_app_iff. now left. Qed.

  Lemma encode_literal m t ls i l : consistent m t -> literals en = Some ls -> nth_error ls i = Some l ->
    (forall j l', (j < i)%nat -> nth_error ls j = Some l' -> getLiteral l' <> getLiteral l) ->
    exists n m' t', encodeEnumLiteral en m t i (getLiteral l) = (VInt64 n, m', t') /\ consistent m' t' /\ extends t t' /\
      In (mkR n en (getLiteral l)) t'.
  Proof.
    intros C El En Hf. unfold encodeEnumLiteral. destruct (id_of m en i) as [n|] eqn:Ei.
    - exists n, m, t. split; [reflexivity|split; [exact C|split; [apply extends_refl|]]].
      apply id_of_in in Ei. destruct (c_ids _ _ _ C _ _ _ Ei) as (ls' & l' & r & E1 & E2 & E3 & E4 & E5 & E6 & _).
      rewrite El in E1. injection E1 as <-. rewrite En in E2. injection E2 as <-. destruct r. cbn in *. now subst.
    - exists (next_id t), (m ++ [(en, i, next_id t)]), (t ++ [mkR (next_id t) en (getLiteral l)]). split; [reflexivity|].
      split; [|split; [exists [mkR (next_id t) en (getLiteral l)]; reflexivity|apply in_app_iff; right; left; reflexivity]]. split.
      + intros e j n H. apply in_app_iff in H. destruct H as [H|[[= <- <- <-]|[]]].
        * destruct (c_ids _ _ _ C _ _ _ H) as (ls' & l' & r & E1 & E2 & E3 & E4). exists ls', l', r.
          split; [exact E1|split; [exact E2|split; [apply in_app_iff; now left|exact E4]]].
        * exists ls, l, (mkR (next_id t) en (getLiteral l)). split; [exact El|split; [exact En|split; [apply in_app_iff; right; left; reflexivity|]]].
          split; [reflexivity|split; [reflexivity|split; [reflexivity|exact Hf]]].
      + rewrite map_app. cbn [map rid]. apply NoDup_app_iff. split; [apply (c_keys _ _ _ C)|split; [repeat constructor; intros []|]].
        intros n Hn [<-|[]]. apply in_map_iff in Hn. destruct Hn as (r & Er & Hr). pose proof (next_id_fresh t r Hr). lia.
  Qed.
  Lemma decode_literal m t n e s ls : consistent m t -> In (mkR n e s) t -> literals e = Some ls -> forall i, position ls s = Some i ->
    exists l m', decodeEnumLiteral literals m t n = Done (l, m') /\ nth_error ls i = Some l /\ consistent m' t.
  Proof.
    intros C Hr El i Hi. unfold decodeEnumLiteral. destruct (position_spec _ _ _ Hi) as (l & E1 & E2 & E3). exists l.
    destruct (literal_of m n) as [[e' i']|] eqn:Ei.
    - apply literal_of_in in Ei. destruct (c_ids _ _ _ C _ _ _ Ei) as (ls' & l' & r & F1 & F2 & F3 & F4 & F5 & F6 & F7).
      assert (r = mkR n e s) by (apply (key_unique t); [apply (c_keys _ _ _ C)|exact F3|exact Hr|exact F4]). subst r. cbn in F5, F6. subst e'.
      rewrite El in F1. injection F1 as <-. pose proof (position_first ls i' l' F2 F7) as F8. rewrite <- F6, Hi in F8. injection F8 as <-.
      rewrite E1 in F2. injection F2 as <-. rewrite El, E1. exists m. split; [reflexivity|split; [reflexivity|exact C]].
    - destruct (find (fun r => rid r =? n) t) as [r|] eqn:Ef; [|apply (find_none _ _ Ef) in Hr; cbn in Hr; now rewrite Z.eqb_refl in Hr].
      apply find_some in Ef. destruct Ef as [F1 F2]. apply Z.eqb_eq in F2.
      assert (r = mkR n e s) by (apply (key_unique t); [apply (c_keys _ _ _ C)|exact F1|exact Hr|exact F2]). subst r.
      cbn [renum rliteral rid]. rewrite El, Hi, E1. exists (m ++ [(e, i, n)]). split; [reflexivity|split; [reflexivity|]].
      split; [|apply (c_keys _ _ _ C)]. intros e0 j n0 H. apply in_app_iff in H. destruct H as [H|[[= <- <- <-]|[]]]; [now apply (c_ids _ _ _ C)|].
      exists ls, l, (mkR n e s). split; [exact El|split; [exact E1|split; [exact Hr|split; [reflexivity|split; [reflexivity|split; [now cbn|]]]]]].
      now rewrite E2.
  Qed.
  (** whatever is decoded, the identifiers stay consistent *)
  Lemma decode_literal_consistent m t n l m' : consistent m t -> decodeEnumLiteral literals m t n = Done (l, m') -> consistent m' t.
  Proof.
    intros C. unfold decodeEnumLiteral. destruct (literal_of m n) as [[e i]|].
    - destruct (literals e) as [ls|]; [|discriminate]. destruct (nth_error ls i); [|discriminate]. now intros [= _ <-].
    - destruct (find (fun r => rid r =? n) t) as [r|] eqn:Ef; [|discriminate]. apply find_some in Ef. destruct Ef as [F1 F2].
      destruct (literals (renum r)) as [ls|] eqn:El; [|discriminate]. destruct (position ls (rliteral r)) as [i|] eqn:Ei; [|discriminate].
      destruct (position_spec _ _ _ Ei) as (l0 & E1 & E2 & E3). rewrite E1. intros [= _ <-].
      split; [|apply (c_keys _ _ _ C)]. intros e0 j n0 H. apply in_app_iff in H. destruct H as [H|[[= <- <- <-]|[]]]; [now apply (c_ids _ _ _ C)|].
      exists ls, l0, r. split; [exact El|split; [exact E1|split; [exact F1|split; [reflexivity|split; [reflexivity|split; [now symmetry|]]]]]].
      now rewrite E2.
  Qed.
  Lemma encode_consistent k v m t x m' t' : consistent m t -> encodeFeatureValue literals convert en k v m t = Done (x, m', t') -> consistent m' t' /\ extends t t'.
  Proof.
    intros C. unfold encodeFeatureValue.
    assert (K : forall y, Done (y, m, t) = Done (x, m', t') -> consistent m' t' /\ extends t t').
    { intros y [= _ <- <-]. split; [exact C|apply extends_refl]. }
    assert (G : match literals en, convert v with
            | Some ls, Some s =>
                match position ls s with
                | Some i => match nth_error ls i with Some l => Done (encodeEnumLiteral en m t i (getLiteral l)) | None => Error end
                | None => Error
                end
            | _, _ => Panicked
            end = Done (x, m', t') -> consistent m' t' /\ extends t t').
    { destruct (literals en) as [ls|] eqn:El; [|discriminate]. destruct (convert v) as [s|]; [|discriminate].
      destruct (position ls s) as [i|] eqn:Ei; [|discriminate]. destruct (position_spec _ _ _ Ei) as (l & E1 & E2 & E3). rewrite E1.
      rewrite <- E2 in E3. destruct (encode_literal m t ls i l C El E1 E3) as (n & m1 & t1 & -> & C1 & X1 & _).
      intros [= _ <- <-]. split; assumption. }
    destruct v; try exact (K _); destruct k; try exact (K _); try exact G; try discriminate;
      (destruct (convert _); [exact (K _)|discriminate]).
  Qed.

  Lemma second_four t : second_time t -> four_digit_year t.
  Proof.
    intros (_ & _ & H). unfold four_digit_year.
    replace (days_of_date 10000 1 1) with 3652425 in H by (vm_compute; reflexivity).
    replace (days_of_date 0 1 1) with 0 in H by (vm_compute; reflexivity). unfold epoch in *. lia.
  Qed.

  (** kinds other than enumerations *)
  Lemma plain_round_trip k v x : (forall m t, encodeFeatureValue literals convert en k v m t = Done (x, m, t)) ->
    (forall m t, decodeFeatureValue literals create default k m t (decodeAny (store convert_sql (column_type k) (bind_arg sprint x))) = Done v) ->
    column_round_trip literals create convert en default sprint convert_sql k v.
  Proof.
    intros H1 H2 m t C. exists x, m, t. split; [apply H1|split; [exact C|split; [apply extends_refl|]]]. intros m2 t2 _ _. apply H2.
  Qed.
  Lemma storable_round_trip k v : storable literals create convert en k v -> column_round_trip literals create convert en default sprint convert_sql k v.
  Proof.
    intros [Hn H]. destruct k.
    all: try (destruct H as (ty & Hty & Hv & Hs); cbn [kind_type] in Hty; try discriminate Hty; injection Hty as <-;
              destruct v; cbn [of_go_type] in Hv; try contradiction; try discriminate Hv; try (lazymatch type of Hv with _ /\ _ => destruct Hv as [Hd Hv]; try discriminate Hd end)).
    - (* float64 *) apply (plain_round_trip _ _ (VFloat64 f)); [reflexivity|]. intros m t.
      destruct Hs as [H1 H2]. destruct f as [[]|s| |s a e]; try contradiction; reflexivity.
    - (* float32 *) apply (plain_round_trip _ _ (VFloat32 f)); [reflexivity|]. intros m t.
      destruct Hs as [H1 H2]. pose proof (narrow_widen f Hv) as N. pose proof (widen_shape f Hv) as W. cbn [bind_arg].
      destruct f as [[]|s| |s a e]; try contradiction; try reflexivity.
      destruct W as (a' & e' & W). rewrite W in *. cbn [bind_float store decodeAny].
      change (str_eqb (column_type sfkFloat32) (lit "REAL")) with true. cbn [decodeAny decodeFeatureValue]. now rewrite N.
    - apply (plain_round_trip _ _ (VInt n)); [reflexivity|]. reflexivity.
    - apply (plain_round_trip _ _ (VInt64 n)); [reflexivity|]. reflexivity.
    - apply (plain_round_trip _ _ (VInt32 n)); [reflexivity|]. intros m t. cbn -[wrap]. now rewrite wrap_signed by (exact Hv || lia).
    - apply (plain_round_trip _ _ (VInt16 n)); [reflexivity|]. intros m t. cbn -[wrap]. now rewrite wrap_signed by (exact Hv || lia).
    - apply (plain_round_trip _ _ (VByte n)); [reflexivity|]. intros m t. cbn -[Z.modulo]. now rewrite Z.mod_small.
    - apply (plain_round_trip _ _ (VBool b)); [reflexivity|]. intros m t. destruct b; reflexivity.
    - apply (plain_round_trip _ _ (VString s)); [reflexivity|]. reflexivity.
    - apply (plain_round_trip _ _ (VBytes b)); [reflexivity|]. intros m t. destruct b as [b|]; [reflexivity|contradiction].
    - (* enumeration *)
      destruct H as (ls & s & l & El & Ev & Eg & Hl). destruct (position_find _ _ _ Eg) as (i & Ei & En).
      destruct (position_spec _ _ _ Ei) as (l' & E1 & E2 & E3). rewrite En in E1. injection E1 as <-.
      intros m t C. pose proof E3 as E3'. rewrite <- E2 in E3'. destruct (encode_literal m t ls i l C El En E3') as (n & m' & t' & Ee & C' & X & Hr).
      exists (VInt64 n), m', t'. split; [|split; [exact C'|split; [exact X|]]].
      + unfold encodeFeatureValue. destruct v; try contradiction; rewrite El, Ev, Ei, En, Ee; reflexivity.
      + intros m2 t2 C2 X2. change (store convert_sql (column_type sfkEnum) (bind_arg sprint (VInt64 n))) with (SInt n). cbn [decodeAny decodeFeatureValue].
        rewrite E2 in Hr. destruct (decode_literal m2 t2 n en s ls C2 (extends_in _ _ _ X2 Hr) El i Ei) as (l2 & m3 & -> & En2 & _).
        rewrite En in En2. injection En2 as <-. rewrite E2. destruct Hl as [->|[-> Hl]]; [destruct v; try contradiction; reflexivity|now rewrite Hl].
    - (* dates *)
      apply (plain_round_trip _ _ (VString (format_rfc3339 t))); [reflexivity|]. intros m t0.
      change (store convert_sql (column_type sfkDate) (bind_arg sprint (VString (format_rfc3339 t)))) with (SText (format_rfc3339 t)).
      cbn [decodeAny decodeFeatureValue]. rewrite rfc3339_ok by (try apply second_four; tauto).
      destruct Hs as (Hz & Ho & _). destruct t as [a b c]. cbn [sec nsec off] in *. subst b.
      assert (Z.quot c 60 * 60 = c). { rewrite Z.mul_comm. pose proof (Z.quot_rem' c 60) as Q. assert (Z.rem c 60 = 0); [|lia].
        apply Z.rem_divide; [lia|]. apply Z.mod_divide; [lia|exact Ho]. }
      do 2 f_equal. f_equal; lia.
    - (* data *)
      destruct H as (s & E1 & E2). apply (plain_round_trip _ _ (VString s)).
      + intros m t. unfold encodeFeatureValue. destruct v; try contradiction; now rewrite E1.
      + intros m t. change (store convert_sql (column_type sfkData) (bind_arg sprint (VString s))) with (SText s). cbn [decodeAny decodeFeatureValue]. now rewrite E2.
    - destruct H as (s & E1 & E2). apply (plain_round_trip _ _ (VString s)).
      + intros m t. unfold encodeFeatureValue. destruct v; try contradiction; now rewrite E1.
      + intros m t. change (store convert_sql (column_type sfkDataList) (bind_arg sprint (VString s))) with (SText s). cbn [decodeAny decodeFeatureValue]. now rewrite E2.
  Qed.
  Lemma null_decodes k m t : encodeFeatureValue literals convert en k VNil m t = Done (VNil, m, t) /\
    decodeFeatureValue literals create default k m t (decodeAny (store convert_sql (column_type k) (bind_arg sprint VNil))) = Done (zero_of default k).
  Proof. split; [reflexivity|]. destruct k; reflexivity. Qed.
End P.

Lemma reference_round_trip id uri : signed 64 id ->
  (id <> 0 -> decodeReference (encodeReference id uri) = Local id) /\
  (id = 0 -> uri <> [] -> snd (parse_int 64 uri) = false -> decodeReference (encodeReference id uri) = Proxy uri).
Proof.
  intro H. unfold decodeReference, encodeReference. split.
  - intro Hz. destruct (Z.eqb_spec id 0); [contradiction|]. pose proof (parse_itoa 64 id) as P.
    specialize (P ltac:(lia) H). destruct (itoa id) as [|c s] eqn:E; [vm_compute in P; injection P as P; congruence|]. now rewrite P.
  - intros -> Hne Hp. cbn [Z.eqb]. destruct uri as [|c s]; [contradiction|]. destruct (parse_int 64 (c :: s)) as [n []]; [discriminate|reflexivity].
Qed.
