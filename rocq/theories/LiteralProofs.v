(** Proofs about LiteralModel. *)
From Coq Require Import String.
From Verif Require Import Base Chars StrconvModel StrconvProofs TimeModel TimeProofs FloatModel LiteralModel LiteralSpec.
Local Open Scope string_scope.
Local Open Scope list_scope.
Local Open Scope Z_scope.

Lemma wrap_signed bits n : 1 <= bits -> signed bits n -> wrap bits n = n.
Proof.
  unfold signed, wrap. intros Hb H. replace (2 ^ bits) with (2 * 2 ^ (bits - 1)) by (rewrite <- Z.pow_succ_r by lia; f_equal; lia).
  rewrite Z.mod_small; lia.
Qed.
Lemma parse_signed bits s : 1 <= bits -> signed bits (fst (parse_int bits s)).
Proof.
  intro Hb. unfold signed, parse_int. assert (0 < 2 ^ (bits - 1)) by (apply Z.pow_pos_nonneg; lia).
  destruct (match s with 45 :: r => (true, r) | 43 :: r => (false, r) | _ => (false, s) end) as [neg ds].
  destruct ds as [|c ds]; [cbn [fst]; lia|].
  assert (Hpos : forall l acc n, 0 <= acc -> number acc l = Some n -> 0 <= n).
  { clear. induction l as [|c l IH]; intros acc n Ha E; cbn [number] in E; [injection E as <-; exact Ha|].
    unfold is_digit in E. destruct ((48 <=? c) && (c <=? 57)) eqn:D; [|discriminate]. apply (IH _ _) in E; [exact E|lia]. }
  destruct (number 0 (c :: ds)) as [n|] eqn:En; [|cbn [fst]; lia]. apply Hpos in En; [|lia].
  destruct neg.
  - destruct (Z.leb_spec n (2 ^ (bits - 1))); cbn [fst]; lia.
  - destruct (Z.ltb_spec n (2 ^ (bits - 1))); cbn [fst]; lia.
Qed.
Lemma parse_uint_range s : 0 <= fst (parse_uint64 s) < 2 ^ 64.
Proof.
  unfold parse_uint64. destruct s as [|c s]; [cbn [fst]; lia|].
  assert (Hpos : forall l acc n, 0 <= acc -> number acc l = Some n -> 0 <= n).
  { clear. induction l as [|c l IH]; intros acc n Ha E; cbn [number] in E; [injection E as <-; exact Ha|].
    unfold is_digit in E. destruct ((48 <=? c) && (c <=? 57)) eqn:D; [|discriminate]. apply (IH _ _) in E; [exact E|lia]. }
  destruct (number 0 (c :: s)) as [n|] eqn:En; [|cbn [fst]; lia]. apply Hpos in En; [|lia].
  destruct (Z.ltb_spec n (2 ^ 64)); cbn [fst]; lia.
Qed.
Lemma parse_uint_itoa n : 0 <= n < 2 ^ 64 -> fst (parse_uint64 (itoa n)) = n.
Proof.
  intro H. destruct (format_nat_spec n) as (_ & Hne & Hn & _); [lia|]. unfold itoa. destruct (Z.ltb_spec n 0); [lia|].
  unfold parse_uint64. destruct (format_nat n) as [|c s]; [contradiction|]. rewrite Hn.
  destruct (Z.ltb_spec n (2 ^ 64)); [reflexivity|lia].
Qed.
Lemma number_bound l acc n : 0 <= acc -> number acc l = Some n -> 0 <= n < (acc + 1) * 10 ^ zlen l.
Proof.
  revert acc n. induction l as [|c l IH]; intros acc n Ha E; cbn [number] in E.
  - injection E as <-. change (zlen (@nil Z)) with 0. lia.
  - unfold is_digit in E. destruct ((48 <=? c) && (c <=? 57)) eqn:D; [|discriminate]. apply IH in E; [|lia].
    replace (zlen (c :: l)) with (Z.succ (zlen l)) by (unfold zlen; cbn [length]; lia).
    rewrite Z.pow_succ_r by (unfold zlen; lia). assert (0 < 10 ^ zlen l) by (apply Z.pow_pos_nonneg; unfold zlen; lia). nia.
Qed.
Lemma parse_frac_range s : 0 <= fst (parse_frac s) < 1000000000.
Proof.
  unfold parse_frac. destruct s as [|c s]; [cbn; lia|]. destruct ((c =? 46) || (c =? 44)); [|cbn; lia].
  destruct (take_digits s) as [ds r]. destruct ds as [|d ds]; [cbn; lia|]. cbv zeta. cbn [fst].
  assert (Hl : zlen (firstn 9 (d :: ds)) <= 9) by (unfold zlen; rewrite firstn_length; lia).
  remember (firstn 9 (d :: ds)) as l eqn:El. clear El. destruct (number 0 l) as [n|] eqn:E; [|lia]. apply number_bound in E; [|lia].
  assert (0 <= zlen l) by (unfold zlen; lia). assert (0 < 10 ^ (9 - zlen l)) by (apply Z.pow_pos_nonneg; lia).
  replace 1000000000 with (10 ^ zlen l * 10 ^ (9 - zlen l)) by (rewrite <- Z.pow_add_r by lia; replace (zlen l + (9 - zlen l)) with 9 by lia; reflexivity).
  nia.
Qed.
Lemma parse_clock_nsec s l ns r : parse_clock s = Some (l, ns, r) -> 0 <= ns < 1000000000.
Proof.
  unfold parse_clock. generalize parse_frac_range. intro F.
  repeat match goal with |- bind ?e _ = _ -> _ => destruct e as [?|]; cbn [bind]; [|discriminate] end;
  repeat match goal with p : (_ * _)%type |- _ => destruct p; repeat match goal with |- bind ?e _ = _ -> _ => destruct e as [?|]; cbn [bind]; [|discriminate] end end.
  match goal with |- context [parse_frac ?x] => pose proof (F x) as B; destruct (parse_frac x) as [n0 r0] end.
  cbn [fst] in B. destruct (_ && _); [|discriminate]. intros [= _ <- _]. exact B.
Qed.
Lemma parse_milli_nsec s t : parse_milli s = Some t -> 0 <= nsec t < 1000000000.
Proof.
  unfold parse_milli. destruct (parse_clock s) as [[[l ns] r]|] eqn:E; cbn [bind]; [|discriminate]. apply parse_clock_nsec in E.
  destruct (expect 90 r) as [[|]|]; cbn [bind]; try discriminate. intros [= <-]. exact E.
Qed.
Lemma parse_format_bool b : parse_bool (format_bool b) = b.
Proof. destruct b; vm_compute; reflexivity. Qed.

Lemma in_go_types (P : string -> string -> Prop) name t : In (name, t) go_types -> Forall (fun q => P (fst q) (snd q)) go_types -> P name t.
Proof. intros H F. rewrite Forall_forall in F. apply (F (name, t) H). Qed.

(** the type switch, by the Go type *)
Definition switch_of (t : string) : option gtype :=
  if string_dec t "float64" then Some GFloat64 else if string_dec t "float32" then Some GFloat32
  else if string_dec t "int" then Some GInt else if string_dec t "uint64" then Some GUint64
  else if string_dec t "int64" then Some GInt64 else if string_dec t "int32" then Some GInt32
  else if string_dec t "int16" then Some GInt16 else if string_dec t "int8" then Some GInt8
  else if string_dec t "bool" then Some GBool else if string_dec t "string" then Some GString
  else if string_dec t "[]byte" then Some GBytes else None.
Lemma switch_go_types name t : In (name, t) go_types -> type_switch (lit name) = switch_of t.
Proof.
  intro H. apply (in_go_types (fun n t => type_switch (lit n) = switch_of t) name t H).
  repeat constructor; vm_compute; reflexivity.
Qed.

Section P.
  Context (format64 format32 : float -> str) (parse64 parse32 : str -> float).
  Local Notation createFromString := (createFromString parse64 parse32).
  Local Notation convertToString := (convertToString format64 format32).
  Local Notation ecore_create := (ecore_create parse64 parse32).
  Local Notation ecore_convert := (ecore_convert format64 format32).

  Lemma factory_round_trip d name t v :
    denum d = None -> getInstanceTypeName d = lit name -> In (name, t) go_types -> of_go_type t v ->
    t <> "[]byte" ->
    (t = "float64" -> exact_format is_float64 format64 parse64) -> (t = "float32" -> exact_format is_float32 format32 parse32) ->
    round_trips (convertToString d) (createFromString d) v.
  Proof.
    intros He Hn Hin Hv Hb H64 H32. unfold round_trips, LiteralModel.convertToString, LiteralModel.createFromString.
    rewrite He, Hn, (switch_go_types name t Hin).
    destruct v; cbn [of_go_type] in Hv; try contradiction; try subst t; try (destruct Hv as [-> Hv]); try (exfalso; apply Hb; reflexivity);
      cbn -[itoa parse_int parse_uint64 parse_bool format_bool Z.pow go_types In] in *; try (eexists; split; reflexivity).
    - eexists. split; [reflexivity|]. now rewrite atoi_itoa.
    - eexists. split; [reflexivity|]. rewrite parse_itoa by (exact Hv || lia). reflexivity.
    - eexists. split; [reflexivity|]. rewrite parse_itoa by (exact Hv || lia). cbn [fst]. now rewrite wrap_signed by (exact Hv || lia).
    - eexists. split; [reflexivity|]. rewrite parse_itoa by (exact Hv || lia). cbn [fst]. now rewrite wrap_signed by (exact Hv || lia).
    - eexists. split; [reflexivity|]. rewrite parse_itoa by (exact Hv || lia). cbn [fst]. now rewrite wrap_signed by (exact Hv || lia).
    - eexists. split; [reflexivity|]. now rewrite parse_uint_itoa.
    - apply in_go_types with (P := fun _ t => t <> "byte") in Hin; [contradiction|repeat constructor; discriminate].
    - eexists. split; [reflexivity|]. now rewrite parse_format_bool.
    - eexists. split; [reflexivity|]. now rewrite (H64 eq_refl).
    - eexists. split; [reflexivity|]. now rewrite (H32 eq_refl).
    - destruct Hv as [Hv _]. apply in_go_types with (P := fun _ t => t <> "*time.Time") in Hin; [contradiction|repeat constructor; discriminate].
  Qed.

  (** enumerations *)
  Lemma enum_round_trip d ls n : denum d = Some ls -> In n (map lvalue ls) ->
    (forall l l', In l ls -> In l' ls -> getLiteral l = getLiteral l' -> lvalue l = lvalue l') ->
    round_trips (convertToString d) (createFromString d) (VInt n).
  Proof.
    intros He Hn Hu. unfold round_trips, LiteralModel.convertToString, LiteralModel.createFromString. rewrite He.
    unfold getEEnumLiteralByValue, getEEnumLiteralByLiteral.
    destruct (find (fun l => lvalue l =? n) ls) as [l|] eqn:E.
    - apply find_some in E. destruct E as [Hl E]. apply Z.eqb_eq in E.
      exists (getLiteral l). split; [reflexivity|].
      destruct (find (fun l0 => str_eqb (getLiteral l0) (getLiteral l)) ls) as [l'|] eqn:E'.
      + apply find_some in E'. destruct E' as [Hl' E']. apply str_eqb_eq in E'. now rewrite (Hu l' l Hl' Hl E'), E.
      + apply (find_none _ _ E') in Hl. now rewrite str_eqb_refl in Hl.
    - apply in_map_iff in Hn. destruct Hn as (l & <- & Hl). apply (find_none _ _ E) in Hl. cbn in Hl. now rewrite Z.eqb_refl in Hl.
  Qed.

  (** any string gives a value of the type *)
  Lemma create_typed d name t s : denum d = None -> getInstanceTypeName d = lit name -> In (name, t) go_types ->
    sized is_float64 parse64 -> sized is_float32 parse32 ->
    exists v, createFromString d s = Some v /\ of_go_type t v.
  Proof.
    intros He Hn Hin S64 S32. unfold LiteralModel.createFromString. rewrite He, Hn, (switch_go_types name t Hin).
    assert (Ht : In t ["float64"; "float32"; "int"; "uint64"; "int64"; "int32"; "int16"; "int8"; "bool"; "string"; "[]byte"]).
    { set (l := ["float64"; "float32"; "int"; "uint64"; "int64"; "int32"; "int16"; "int8"; "bool"; "string"; "[]byte"]).
      assert (F : forallb (fun q => existsb (String.eqb (snd q)) l) go_types = true) by (vm_compute; reflexivity).
      rewrite forallb_forall in F. specialize (F _ Hin). apply existsb_exists in F. destruct F as (x & Hx & E). apply String.eqb_eq in E. cbn [snd] in E. now rewrite E. }
    cbn [In] in Ht. destruct Ht as [<-|[<-|[<-|[<-|[<-|[<-|[<-|[<-|[<-|[<-|[<-|[]]]]]]]]]]]];
      eexists; (split; [reflexivity|]); cbn -[signed parse_int parse_uint64 wrap]; try (split; [reflexivity|]);
      try reflexivity; try apply S64; try apply S32; try apply parse_uint_range; try (apply parse_signed; lia);
      (rewrite wrap_signed; [apply parse_signed; lia|lia|apply parse_signed; lia]).
  Qed.

  (** Ecore *)
  Lemma milli_four t : milli_time t -> four_digit_year t.
  Proof.
    intros (Ho & _ & H). unfold four_digit_year. rewrite Ho.
    replace (days_of_date 10000 1 1) with 3652425 in H by (vm_compute; reflexivity).
    replace (days_of_date 0 1 1) with 0 in H by (vm_compute; reflexivity). unfold epoch in *. lia.
  Qed.

  Lemma ecore_round_trip e v : of_go_type (ecore_go_type e) v ->
    v <> VBytes None -> (forall t, v = VTime t -> milli_time t) ->
    (exact_format is_float64 format64 parse64) -> (exact_format is_float32 format32 parse32) ->
    round_trips (ecore_convert e) (ecore_create e) v.
  Proof.
    intros Hv Hb Ht H64 H32. unfold round_trips.
    destruct v; cbn [of_go_type] in Hv; try contradiction.
    all: try (lazymatch type of Hv with _ /\ _ => idtac end; destruct e; cbn [ecore_go_type] in Hv; destruct Hv as [Hd Hv]; try discriminate Hd; cbn -[itoa parse_int Z.pow];
              eexists; (split; [reflexivity|]);
              first [now rewrite atoi_itoa | rewrite parse_itoa by (exact Hv || lia); cbn [fst]; rewrite ?wrap_signed by (exact Hv || lia); reflexivity
                    | now rewrite H64 | now rewrite H32 | reflexivity]).
    - destruct e; cbn [ecore_go_type] in Hv; try discriminate Hv; (eexists; split; [reflexivity|]); cbn -[parse_bool format_bool]; now rewrite parse_format_bool.
    - destruct e; cbn [ecore_go_type] in Hv; try discriminate Hv. eexists. split; reflexivity.
    - destruct e; cbn [ecore_go_type] in Hv; try discriminate Hv. destruct b as [b|]; [|contradiction]. eexists. split; reflexivity.
    - destruct e; cbn [ecore_go_type] in Hv; destruct Hv as [Hd Hv]; try discriminate Hd.
      pose proof (Ht t eq_refl) as M. eexists. split; [reflexivity|]. cbn [LiteralModel.ecore_create].
      rewrite milli_ok by (try apply milli_four; tauto). destruct M as (Ho & Hn & _). destruct t as [a b c]. cbn [sec nsec off] in *. subst c.
      do 2 f_equal. f_equal; lia.
  Qed.
  Lemma ecore_typed e s : ecore_go_type e <> "" -> ecore_go_type e <> "byte" \/ s <> [] -> (forall c, In c s -> 0 <= c < 256) ->
    sized is_float64 parse64 -> sized is_float32 parse32 ->
    exists v, ecore_create e s = Some v /\ of_go_type (ecore_go_type e) v.
  Proof.
    intros He Hs Hc S64 S32.
    destruct e; cbn [ecore_go_type] in *; try contradiction; (eexists; split; [reflexivity|]);
      cbn -[signed parse_int wrap] ; try (split; [reflexivity|]); try reflexivity; try apply S64; try apply S32; try (apply parse_signed; lia);
      try (rewrite wrap_signed; [apply parse_signed; lia|lia|apply parse_signed; lia]).
    1-4: destruct s as [|c s]; [destruct Hs; contradiction|cbn; split; [reflexivity|apply Hc; left; reflexivity]].
    destruct (parse_milli s) as [t|] eqn:E; [|cbn; lia]. split; [now apply parse_milli_nsec in E|].
    unfold parse_milli, bind in E. destruct (parse_clock s) as [[[l ns] r]|]; [|discriminate]. destruct (expect 90 r) as [[|]|]; try discriminate.
    injection E as <-. cbn. lia.
  Qed.
End P.
