(** XML documents as trees: their text as the writer lays it out, the tokens which they consist of, and the proof that
    the tokenizer of XmlTokenModel finds these tokens in that text. *)
From Coq Require Import String.
From Verif Require Import Base Chars XmlOutSpec XmlOutProofs XmlTokenModel.
Open Scope Z_scope.

(** an element with its name and its attributes: name, text, and value which the text stands for *)
Inductive node := Elem (n : str) (attrs : list (str * str * str)) (c : cont)
with cont := CNone | CText (t : str) | CKids (l : list node).

Definition pattr (a : str * str * str) : str := let '(n, raw, _) := a in attribute n raw.
Fixpoint print (d : Z) (x : node) {struct x} : str :=
  match x with
  | Elem n attrs c =>
      [60] ++ n ++ flat_map pattr attrs ++
      match c with
      | CNone => [47; 62]
      | CText t => [62] ++ t ++ [60; 47] ++ n ++ [62]
      | CKids l => [62; 10] ++ flat_map (fun k => blanks (d + 1) ++ print (d + 1) k ++ [10]) l ++ blanks d ++ [60; 47] ++ n ++ [62]
      end
  end.

Definition qsplit (n : str) : str * str := match nsname n with Some x => x | None => ([], n) end.
Definition split_attr (a : str * str * str) : attr := let '(n, _, v) := a in (fst (qsplit n), snd (qsplit n), v).
Definition scope_of (e : env) (attrs : list (str * str * str)) : env := env_add (map split_attr attrs) e.
Definition start_token (e : env) (n : str) (attrs : list (str * str * str)) : token :=
  TStart (translate e true (fst (qsplit n)) (snd (qsplit n))) (snd (qsplit n))
    (map (fun '(q, m, v) => (translate e false q m, m, v)) (map split_attr attrs)).
Fixpoint toks (e : env) (d : Z) (x : node) {struct x} : list token :=
  match x with
  | Elem n attrs c =>
      let e' := scope_of e attrs in
      [start_token e' n attrs] ++
      match c with
      | CNone => []
      | CText [] => []
      | CText t => [TText t]
      | CKids l => flat_map (fun k => TText (10 :: blanks (d + 1)) :: toks e' (d + 1) k) l ++ [TText (10 :: blanks d)]
      end ++ [TEnd]
  end.

(** the text of an attribute stands for a value *)
Definition quoted (raw v : str) : Prop :=
  forall fuel b0 b1 rest, (length raw < fuel)%nat -> b1 <> 13 -> chars fuel (Some 34) b0 b1 (raw ++ 34 :: rest) = Some (v, rest).
(** character data without references and carriage returns *)
Definition plain (extra : list Z) (s : str) : Prop := forall c, In c s -> allowed c = true /\ ~ In c [60; 38; 13] /\ ~ In c extra.
Definition plain_text (s : str) : Prop := plain [] s /\ ~ exists a b, s = a ++ [93; 93; 62] ++ b.

Definition wf_name (n : str) : Prop := name n /\ nsname n <> None.
Inductive wf : node -> Prop :=
| wf_elem n attrs c : wf_name n -> (forall m raw v, In (m, raw, v) attrs -> wf_name m /\ quoted raw v) ->
    (forall t, c = CText t -> plain_text t) -> (forall l k, c = CKids l -> In k l -> wf k) -> wf (Elem n attrs c).

(** ** Characters *)
Lemma ends_name_special : forall c, ends_name c = true <-> In c special.
Proof.
  intros c. unfold ends_name. rewrite existsb_exists. split.
  - intros (x & I & E). apply Z.eqb_eq in E. subst. exact I.
  - intros I. exists c. split; auto. apply Z.eqb_refl.
Qed.
Lemma is_white_ends : forall c, is_white c = true -> ends_name c = true.
Proof.
  intros c H. unfold is_white in H. apply existsb_exists in H. destruct H as (x & I & E). apply Z.eqb_eq in E. subst x. apply ends_name_special.
  cbn in I. unfold special. cbn. tauto.
Qed.
Lemma name_char : forall n c, name n -> In c n -> ends_name c = false.
Proof. intros n c [_ N] I. destruct (ends_name c) eqn:E; auto. apply ends_name_special in E. exfalso. eapply N; eauto. Qed.
Lemma read_name_app : forall n c r, (forall x, In x n -> ends_name x = false) -> ends_name c = true -> read_name (n ++ c :: r) = (n, c :: r).
Proof.
  induction n as [|x n IH]; intros c r N C; cbn [app read_name].
  - rewrite C. auto.
  - rewrite N by (cbn; auto). rewrite IH; auto. intros y I. apply N. cbn. auto.
Qed.

Lemma chars_plain_quoted : forall s, plain [34] s -> quoted s s.
Proof.
  intros s P fuel. revert s P. induction fuel as [|fuel IH]; intros s P b0 b1 rest F B; [lia|]. destruct s as [|c s]; cbn [app chars].
  - cbn. auto.
  - destruct (P c ltac:(cbn; auto)) as (A & N1 & N2). cbn in N1, N2. cbn [length] in F.
    assert (C60 : (c =? 60) = false) by lia. assert (C34 : (c =? 34) = false) by lia. assert (C38 : (c =? 38) = false) by lia. assert (C13 : (c =? 13) = false) by lia.
    rewrite C60, C34, C38, A. cbn [negb]. rewrite IH; [|intros x I; apply P; cbn; auto|lia|lia].
    rewrite C13. replace (b1 =? 13) with false by lia. auto.
Qed.

Lemma reference_escape : forall c, (c =? 38) || (c =? 39) || (c =? 60) || (c =? 62) || (c =? 34) || (c =? 13) = true ->
  exists e, XmlOutModel.escape1 c = 38 :: e ++ [59] /\ (forall x, In x e -> ends_name x = false) /\ reference e = Some c.
Proof.
  intros c H.
  assert (X : c = 38 \/ c = 39 \/ c = 60 \/ c = 62 \/ c = 34 \/ c = 13) by lia.
  destruct X as [-> | [-> | [-> | [-> | [-> | ->]]]]].
  - exists (lit "amp"). split; [reflexivity|split; [|reflexivity]]. intros x I. cbn in I. intuition (subst; reflexivity).
  - exists (lit "#39"). split; [reflexivity|split; [|reflexivity]]. intros x I. cbn in I. intuition (subst; reflexivity).
  - exists (lit "lt"). split; [reflexivity|split; [|reflexivity]]. intros x I. cbn in I. intuition (subst; reflexivity).
  - exists (lit "gt"). split; [reflexivity|split; [|reflexivity]]. intros x I. cbn in I. intuition (subst; reflexivity).
  - exists (lit "#34"). split; [reflexivity|split; [|reflexivity]]. intros x I. cbn in I. intuition (subst; reflexivity).
  - exists (lit "#13"). split; [reflexivity|split; [|reflexivity]]. intros x I. cbn in I. intuition (subst; reflexivity).
Qed.
Lemma escape1_plain : forall c, (c =? 38) || (c =? 39) || (c =? 60) || (c =? 62) || (c =? 34) || (c =? 13) = false -> XmlOutModel.escape1 c = [c].
Proof.
  intros c H. unfold XmlOutModel.escape1. destruct (c =? 38); [discriminate|]. destruct (c =? 39); [discriminate|]. destruct (c =? 60); [discriminate|]. destruct (c =? 62); [discriminate|].
  destruct (c =? 34); [discriminate|]. destruct (c =? 13); [discriminate|]. auto.
Qed.
(** an escaped text stands for the text *)
Lemma escape_quoted : forall s, (forall c, In c s -> allowed c = true) -> quoted (XmlOutModel.escape s) s.
Proof.
  induction s as [|c s IH]; intros A fuel b0 b1 rest F B; cbn [XmlOutModel.escape flat_map] in *.
  - destruct fuel; [cbn in F; lia|]. cbn. auto.
  - assert (AS : forall x, In x s -> allowed x = true) by (intros; apply A; cbn; auto). specialize (IH AS).
    change (flat_map XmlOutModel.escape1 s) with (XmlOutModel.escape s) in *. rewrite <- app_assoc.
    destruct ((c =? 38) || (c =? 39) || (c =? 60) || (c =? 62) || (c =? 34) || (c =? 13)) eqn:E.
    + destruct (reference_escape c E) as (e & EQ & N & R). rewrite EQ in *. rewrite app_length in F. cbn [length] in F. rewrite app_length in F. cbn [length] in F.
      destruct fuel as [|fuel]; [lia|]. cbn [app chars]. change (38 =? 60) with false. change (38 =? 34) with false. change (38 =? 38) with true. cbv iota. rewrite <- app_assoc. cbn [app].
      rewrite read_name_app by auto. change (59 =? 59) with true. cbv iota. rewrite R. rewrite IH; [auto|lia|discriminate].
    + rewrite escape1_plain by auto. rewrite escape1_plain in F by auto. cbn [app length] in *. destruct fuel as [|fuel]; [lia|]. cbn [chars].
      replace (c =? 60) with false by lia. replace (c =? 34) with false by lia. replace (c =? 38) with false by lia. rewrite (A c) by (cbn; auto). cbn [negb].
      rewrite IH by lia. replace (c =? 13) with false by lia. replace (b1 =? 13) with false by lia. auto.
Qed.

(** character data up to the next tag *)
Lemma chars_plain_text : forall fuel s b0 b1 rest, plain [] s -> (length s < fuel)%nat -> b1 <> 13 ->
  (~ exists a b, b0 :: b1 :: s = a ++ [93; 93; 62] ++ b) -> chars fuel None b0 b1 (s ++ 60 :: rest) = Some (s, 60 :: rest).
Proof.
  induction fuel as [|fuel IH]; intros s b0 b1 rest P F B NC; [lia|]. destruct s as [|c s]; cbn [app chars].
  - destruct ((b0 =? 93) && (b1 =? 93) && (60 =? 62)) eqn:E; [|auto]. rewrite andb_false_r in E. discriminate.
  - destruct (P c ltac:(cbn; auto)) as (A & N1 & _). cbn in N1. cbn [length] in F.
    destruct ((b0 =? 93) && (b1 =? 93) && (c =? 62)) eqn:E.
    { exfalso. apply NC. exists [], s. cbn. f_equal; [lia|f_equal; [lia|f_equal; lia]]. }
    replace (c =? 60) with false by lia. replace (c =? 38) with false by lia. rewrite A. cbn [negb].
    rewrite IH; [| |lia|lia|].
    + replace (c =? 13) with false by lia. replace (b1 =? 13) with false by lia. auto.
    + intros x I. apply P. cbn. auto.
    + intros (a & b & E2). apply NC. exists (b0 :: a), b. change ((b0 :: a) ++ [93; 93; 62] ++ b) with (b0 :: (a ++ [93; 93; 62] ++ b)). rewrite <- E2. auto.
Qed.
Lemma chars_text : forall s rest, plain_text s -> chars (S (length (s ++ 60 :: rest))) None 0 0 (s ++ 60 :: rest) = Some (s, 60 :: rest).
Proof.
  intros s rest [P N]. apply chars_plain_text; auto; [rewrite app_length; lia|lia|]. intros (a & b & E). destruct a as [|x [|y a]]; cbn in E; try discriminate.
  injection E as _ _ E. apply N. exists a, b. auto.
Qed.

(** ** Attributes *)
Lemma skip_white_not : forall c r, is_white c = false -> skip_white (c :: r) = c :: r.
Proof. intros c r H. cbn [skip_white]. rewrite H. auto. Qed.
Lemma skip_white_blank : forall r, skip_white (32 :: r) = skip_white r.
Proof. reflexivity. Qed.
Lemma not_ends_not_white : forall c, ends_name c = false -> is_white c = false.
Proof. intros c H. destruct (is_white c) eqn:E; auto. apply is_white_ends in E. congruence. Qed.
Definition closes (r : str) : option (bool * str) :=
  match r with
  | c :: r' => if c =? 62 then Some (false, r') else if c =? 47 then match r' with c' :: r'' => if c' =? 62 then Some (true, r'') else None | [] => None end else None
  | [] => None
  end.
Lemma ends_false : forall c, ends_name c = false -> (c =? 62) = false /\ (c =? 47) = false /\ (c =? 60) = false /\ (c =? 63) = false.
Proof.
  intros c H. repeat split; apply Z.eqb_neq; intros ->; discriminate.
Qed.
Lemma read_attrs_ok : forall attrs r e rest fuel, (forall m raw v, In (m, raw, v) attrs -> wf_name m /\ quoted raw v) ->
  closes r = Some (e, rest) -> (length attrs < fuel)%nat ->
  read_attrs fuel (flat_map pattr attrs ++ r) = Some (map split_attr attrs, e, rest).
Proof.
  induction attrs as [|[[n raw] v] attrs IH]; intros r e rest fuel W C F; (destruct fuel as [|fuel]; [cbn in F; lia|]); cbn [flat_map app map].
  - cbn [read_attrs]. destruct r as [|c r]; [discriminate|]. cbn [closes] in C. destruct (Z.eqb_spec c 62) as [->|N].
    + injection C as <- <-. cbn. auto.
    + destruct (Z.eqb_spec c 47) as [->|N2]; [|discriminate]. destruct r as [|c' r]; [discriminate|]. destruct (Z.eqb_spec c' 62) as [->|N3]; [|discriminate]. injection C as <- <-. cbn. auto.
  - destruct (W n raw v ltac:(cbn; auto)) as [[NM NS] Q]. cbn [length] in F.
    assert (NC : forall x, In x n -> ends_name x = false) by (intros; eapply name_char; eauto).
    destruct n as [|c n]; [destruct NM; congruence|]. pose proof (NC c ltac:(cbn; auto)) as EC. destruct (ends_false c EC) as (E1 & E2 & _).
    unfold pattr at 1, attribute. rewrite <- !app_assoc. cbn [app read_attrs]. rewrite skip_white_blank. rewrite skip_white_not by (apply not_ends_not_white; auto).
    rewrite E1, E2. change (c :: n ++ 61 :: 34 :: raw ++ 34 :: flat_map pattr attrs ++ r) with ((c :: n) ++ 61 :: 34 :: raw ++ 34 :: flat_map pattr attrs ++ r).
    rewrite read_name_app by auto. destruct (nsname (c :: n)) as [[p l]|] eqn:EN; [|congruence]. rewrite skip_white_not by reflexivity. change (61 =? 61) with true. cbv iota.
    rewrite skip_white_not by reflexivity. change ((34 =? 34) || (34 =? 39)) with true. cbv iota. rewrite Q; [|rewrite app_length; lia|discriminate].
    rewrite (IH r e rest fuel); auto; [|intros; apply W; cbn; auto|lia]. cbn [split_attr]. unfold qsplit. rewrite EN. reflexivity.
Qed.

(** ** Elements *)
Fixpoint cost (x : node) : nat :=
  match x with
  | Elem _ _ c => match c with
                  | CNone => 1
                  | CText [] => 2
                  | CText _ => 3
                  | CKids l => 3 + fold_right (fun k n => (1 + cost k + n)%nat) 0%nat l
                  end
  end.

Definition then_lex (ts : list token) (r : list token * bool) : list token * bool := (ts ++ fst r, snd r).
Lemma next_then : forall fuel open r ts, (let '(ts', ok) := lex fuel open r in (ts ++ ts', ok)) = then_lex ts (lex fuel open r).
Proof. intros. unfold then_lex. destruct (lex fuel open r). auto. Qed.
Lemma then_then : forall a b r, then_lex a (then_lex b r) = then_lex (a ++ b) r.
Proof. intros. unfold then_lex. cbn. rewrite app_assoc. auto. Qed.

Definition in_scope (open : list (str * env)) : env := match open with (_, e) :: _ => e | [] => [] end.
Lemma lex_start : forall fuel open n attrs r e rest, wf_name n -> (forall m raw v, In (m, raw, v) attrs -> wf_name m /\ quoted raw v) ->
  closes r = Some (e, rest) -> (length attrs <= length (flat_map pattr attrs))%nat ->
  lex (S fuel) open ([60] ++ n ++ flat_map pattr attrs ++ r) =
  let e' := scope_of (in_scope open) attrs in
  if e then then_lex [start_token e' n attrs; TEnd] (lex fuel open rest) else then_lex [start_token e' n attrs] (lex fuel ((n, e') :: open) rest).
Proof.
  intros fuel open n attrs r e rest [NM NS] W C L. cbn zeta. cbn [app lex]. change (60 =? 60) with true. cbv iota.
  assert (NC : forall x, In x n -> ends_name x = false) by (intros; eapply name_char; eauto).
  destruct n as [|c n]; [destruct NM; congruence|]. pose proof (NC c ltac:(cbn; auto)) as EC. destruct (ends_false c EC) as (_ & E2 & _ & E4). cbn [app].
  rewrite E4, E2.
  assert (H : exists c' r', flat_map pattr attrs ++ r = c' :: r' /\ ends_name c' = true).
  { destruct attrs as [|[[m raw] v] attrs]; cbn [flat_map app pattr].
    - destruct r as [|c' r']; [discriminate|]. exists c', r'. split; auto. cbn [closes] in C. destruct (Z.eqb_spec c' 62) as [->|]; [reflexivity|]. destruct (Z.eqb_spec c' 47) as [->|]; [reflexivity|discriminate].
    - unfold attribute. cbn [app]. eexists _, _. split; [reflexivity|]. reflexivity. }
  destruct H as (c' & r' & H1 & H2). change (c :: n ++ flat_map pattr attrs ++ r) with ((c :: n) ++ flat_map pattr attrs ++ r).
  rewrite H1. rewrite read_name_app by auto. rewrite <- H1. destruct (nsname (c :: n)) as [[p l]|] eqn:EN; [|congruence].
  rewrite (read_attrs_ok attrs r e rest); auto; [|rewrite app_length; lia].
  unfold start_token, scope_of, qsplit. rewrite EN. cbn [fst snd]. destruct open as [|[m' e'] open]; cbn [in_scope]; destruct e; unfold then_lex; destruct (lex fuel _ rest); reflexivity.
Qed.
Lemma lex_end : forall fuel n e open r, name n -> lex (S fuel) ((n, e) :: open) ([60; 47] ++ n ++ [62] ++ r) = then_lex [TEnd] (lex fuel open r).
Proof.
  intros fuel n e open r NM. cbn [app lex]. change (60 =? 60) with true. change (47 =? 63) with false. change (47 =? 47) with true. cbv iota.
  rewrite read_name_app; [|intros; eapply name_char; eauto|reflexivity]. rewrite skip_white_not by reflexivity. rewrite str_eqb_refl. cbn [Z.eqb Pos.eqb andb]. unfold then_lex. destruct (lex fuel open r); reflexivity.
Qed.
Lemma lex_text : forall fuel open s r, plain_text s -> s <> [] -> lex (S fuel) open (s ++ 60 :: r) = then_lex [TText s] (lex fuel open (60 :: r)).
Proof.
  intros fuel open s r P N. destruct s as [|c s]; [congruence|]. cbn [app lex]. destruct (proj1 P c ltac:(cbn; auto)) as (_ & N1 & _). cbn in N1.
  replace (c =? 60) with false by lia. change (c :: s ++ 60 :: r) with ((c :: s) ++ 60 :: r). rewrite chars_text by auto. unfold then_lex. destruct (lex fuel open (60 :: r)); reflexivity.
Qed.
Lemma pattr_length : forall attrs, (length attrs <= length (flat_map pattr attrs))%nat.
Proof.
  induction attrs as [|[[n raw] v] attrs IH]; cbn [flat_map length]; auto. rewrite app_length. unfold pattr at 1, attribute. cbn [app length]. lia.
Qed.
Lemma blank_text : forall d, plain_text (10 :: blanks d).
Proof.
  intros d. assert (X : forall c, In c (10 :: blanks d) -> c = 10 \/ c = 32) by (intros c [<-|I]; auto; apply repeat_spec in I; auto). split.
  - intros c I. apply X in I. destruct I as [->| ->]; cbn; intuition (try discriminate).
  - intros (a & b & E). specialize (X 93). rewrite E in X. destruct X as [X|X]; try discriminate. apply in_or_app. cbn. auto.
Qed.
Lemma print_lt : forall d x, exists r, print d x = 60 :: r.
Proof. intros d [n attrs c]. cbn [print app]. eauto. Qed.
Lemma kids_line : forall d l r, exists t, flat_map (fun k => blanks d ++ print d k ++ [10]) l ++ r = t ++ r.
Proof. eauto. Qed.

Ltac app_norm := cbn [closes app Z.eqb Pos.eqb]; repeat (rewrite <- !app_assoc; cbn [app]).
Lemma lex_node : forall x, wf x -> forall d fuel open rest,
  lex (cost x + fuel) open (print d x ++ rest) = then_lex (toks (in_scope open) d x) (lex fuel open rest).
Proof.
  fix IH 2. intros x [n attrs c WN WA WT WK] d fuel open rest. cbn [print]. rewrite <- !app_assoc. destruct c as [|t|l].
  - cbn [cost Nat.add]. rewrite (lex_start fuel open n attrs _ true rest) by auto using pattr_length. cbn zeta. cbn [toks app]. reflexivity.
  - specialize (WT t eq_refl).
    assert (E : lex (cost (Elem n attrs (CText t)) + fuel) open ([60] ++ n ++ flat_map pattr attrs ++ ([62] ++ t ++ [60; 47] ++ n ++ [62]) ++ rest)
              = then_lex [start_token (scope_of (in_scope open) attrs) n attrs] (lex (pred (cost (Elem n attrs (CText t))) + fuel) ((n, scope_of (in_scope open) attrs) :: open) (t ++ [60; 47] ++ n ++ [62] ++ rest))).
    { replace (cost (Elem n attrs (CText t)) + fuel)%nat with (S (pred (cost (Elem n attrs (CText t))) + fuel)) by (destruct t; cbn [cost]; lia).
      rewrite (lex_start _ open n attrs _ false (t ++ [60; 47] ++ n ++ [62] ++ rest)) by (auto using pattr_length; app_norm; reflexivity). reflexivity. }
    rewrite E. clear E. destruct t as [|c t].
    + cbn [cost pred Nat.add app]. change (60 :: 47 :: n ++ 62 :: rest) with ([60; 47] ++ n ++ [62] ++ rest). rewrite lex_end by apply WN. rewrite then_then. reflexivity.
    + cbn [cost pred Nat.add]. change (lex (S (S fuel)) ((n, scope_of (in_scope open) attrs) :: open) ((c :: t) ++ 60 :: 47 :: n ++ [62] ++ rest)) with (lex (S (S fuel)) ((n, scope_of (in_scope open) attrs) :: open) ((c :: t) ++ 60 :: (47 :: n ++ [62] ++ rest))).
      change ([60; 47] ++ n ++ [62] ++ rest) with (60 :: (47 :: n ++ [62] ++ rest)).
      rewrite lex_text; auto; [|discriminate]. change (60 :: 47 :: n ++ [62] ++ rest) with ([60; 47] ++ n ++ [62] ++ rest). rewrite lex_end by apply WN. rewrite !then_then. reflexivity.
  - cbn [cost].
    set (e' := scope_of (in_scope open) attrs).
    assert (KS : forall l', (forall k, In k l' -> In k l) -> forall fuel',
        lex (fold_right (fun k m => (1 + cost k + m)%nat) 0%nat l' + S (S fuel')) ((n, e') :: open)
            (10 :: flat_map (fun k => blanks (d + 1) ++ print (d + 1) k ++ [10]) l' ++ blanks d ++ [60; 47] ++ n ++ [62] ++ rest)
        = then_lex (flat_map (fun k => TText (10 :: blanks (d + 1)) :: toks e' (d + 1) k) l' ++ [TText (10 :: blanks d)] ++ [TEnd]) (lex fuel' open rest)).
    { induction l' as [|k l' IHl]; intros SUB fuel'; cbn [flat_map fold_right Nat.add app].
      - change (10 :: blanks d ++ 60 :: 47 :: n ++ 62 :: rest) with ((10 :: blanks d) ++ 60 :: (47 :: n ++ 62 :: rest)). rewrite lex_text; [|apply blank_text|discriminate].
        change (60 :: 47 :: n ++ 62 :: rest) with ([60; 47] ++ n ++ [62] ++ rest). rewrite lex_end by apply WN. rewrite then_then. reflexivity.
      - rewrite <- !app_assoc. cbn [app].
        change (10 :: blanks (d + 1) ++ print (d + 1) k ++ 10 :: flat_map (fun k0 => blanks (d + 1) ++ print (d + 1) k0 ++ [10]) l' ++ blanks d ++ 60 :: 47 :: n ++ 62 :: rest)
          with ((10 :: blanks (d + 1)) ++ print (d + 1) k ++ 10 :: flat_map (fun k0 => blanks (d + 1) ++ print (d + 1) k0 ++ [10]) l' ++ blanks d ++ 60 :: 47 :: n ++ 62 :: rest).
        destruct (print_lt (d + 1) k) as (r & PE). rewrite PE. cbn [app]. change (10 :: blanks (d + 1) ++ 60 :: r ++ 10 :: flat_map (fun k0 => blanks (d + 1) ++ print (d + 1) k0 ++ [10]) l' ++ blanks d ++ 60 :: 47 :: n ++ 62 :: rest)
          with ((10 :: blanks (d + 1)) ++ 60 :: (r ++ 10 :: flat_map (fun k0 => blanks (d + 1) ++ print (d + 1) k0 ++ [10]) l' ++ blanks d ++ 60 :: 47 :: n ++ 62 :: rest)).
        rewrite lex_text; [|apply blank_text|discriminate].
        change (60 :: r ++ 10 :: flat_map (fun k0 => blanks (d + 1) ++ print (d + 1) k0 ++ [10]) l' ++ blanks d ++ 60 :: 47 :: n ++ 62 :: rest)
          with ((60 :: r) ++ 10 :: flat_map (fun k0 => blanks (d + 1) ++ print (d + 1) k0 ++ [10]) l' ++ blanks d ++ 60 :: 47 :: n ++ 62 :: rest).
        rewrite <- PE. rewrite <- Nat.add_assoc. rewrite (IH k (WK l k eq_refl (SUB k (or_introl eq_refl)))). cbn [in_scope].
        change ([60; 47] ++ n ++ [62] ++ rest) with (60 :: 47 :: n ++ 62 :: rest) in IHl. rewrite IHl by (intros; apply SUB; cbn; auto). rewrite !then_then. cbn [app]. rewrite <- ?app_assoc. reflexivity. }
    replace (3 + fold_right (fun k m => (1 + cost k + m)%nat) 0%nat l + fuel)%nat with (S (fold_right (fun k m => (1 + cost k + m)%nat) 0%nat l + S (S fuel))) by lia.
    rewrite (lex_start _ open n attrs _ false (10 :: flat_map (fun k => blanks (d + 1) ++ print (d + 1) k ++ [10]) l ++ blanks d ++ [60; 47] ++ n ++ [62] ++ rest)) by (auto using pattr_length; app_norm; reflexivity).
    cbn zeta. fold e'. rewrite (KS l (fun k I => I)). rewrite then_then. cbn [toks]. fold e'. rewrite <- !app_assoc. reflexivity.
Qed.

(** ** Documents *)
Lemma cost_length : forall x, wf x -> forall d, (cost x <= length (print d x))%nat.
Proof.
  fix IH 2. intros x [n attrs c WN WA WT WK] d. destruct (proj1 WN) as [NE _]. destruct n as [|y n]; [congruence|]. cbn [print cost]. rewrite !app_length. cbn [length]. destruct c as [|t|l].
  - cbn. lia.
  - destruct t as [|z t]; cbn [app length]; rewrite ?app_length; cbn [length app]; rewrite ?app_length; cbn [length]; lia.
  - cbn [app length]. rewrite !app_length. cbn [length app]. rewrite ?app_length. cbn [length].
    assert (K : forall l', (forall k, In k l' -> In k l) -> (fold_right (fun k m => (1 + cost k + m)%nat) 0%nat l' <= length (flat_map (fun k => blanks (d + 1)%Z ++ print (d + 1)%Z k ++ [10%Z]) l'))%nat).
    { induction l' as [|k l' IHl]; intros SUB; cbn [fold_right flat_map]; [cbn; lia|]. rewrite !app_length. cbn [length].
      pose proof (IH k (WK l k eq_refl (SUB k (or_introl eq_refl))) (d + 1)). specialize (IHl ltac:(intros; apply SUB; cbn; auto)). lia. }
    specialize (K l (fun k I => I)). lia.
Qed.

Lemma skip_instruction_ok : forall s c r, (forall x, In x s -> x <> 63) -> c <> 63 -> skip_instruction c (s ++ 63 :: 62 :: r) = Some r.
Proof.
  induction s as [|x s IH]; intros c r N C; cbn [app skip_instruction].
  - replace (c =? 63) with false by lia. cbn. auto.
  - replace (c =? 63) with false by lia. cbn [andb]. apply IH; [intros; apply N; cbn; auto|apply N; cbn; auto].
Qed.
Definition header (version encoding : str) : str := lit "<?xml version=""" ++ version ++ lit """ encoding=""" ++ encoding ++ lit """?>".
Definition no_question (s : str) : Prop := forall c, In c s -> c <> 63.

Lemma lex_instruction : forall fuel open s r, skip_instruction 0 s = Some r -> lex (S fuel) open (60 :: 63 :: s) = then_lex [TOther] (lex fuel open r).
Proof. intros fuel open s r H. cbn [lex]. change (60 =? 60) with true. change (63 =? 63) with true. cbv iota. rewrite H. unfold then_lex. destruct (lex fuel open r); reflexivity. Qed.
Lemma lex_last : forall fuel, lex (S (S fuel)) [] [10] = ([TText [10]], true).
Proof. intros. reflexivity. Qed.
Lemma tokens_document : forall version encoding x, no_question version -> no_question encoding -> wf x ->
  tokens_of (header version encoding ++ [10] ++ print 0 x ++ [10]) = (TOther :: TText [10] :: toks [] 0 x ++ [TText [10]], true).
Proof.
  intros version encoding x NV NE W. unfold tokens_of.
  set (L := length (header version encoding ++ [10] ++ print 0 x ++ [10])).
  assert (LL : (cost x + 5 <= L)%nat).
  { unfold L, header. rewrite !app_length. cbn [length lit map list_ascii_of_string]. pose proof (cost_length x W 0). lia. }
  replace (S L) with (S (S (cost x + S (S (L - cost x - 3))))) by lia.
  assert (H : header version encoding = 60 :: 63 :: (lit "xml version=""" ++ version ++ lit """ encoding=""" ++ encoding ++ [34]) ++ [63; 62]).
  { unfold header. change (lit "<?xml version=""") with (60 :: 63 :: lit "xml version="""). change (lit """?>") with ([34] ++ [63; 62]). rewrite <- !app_assoc. cbn [app]. reflexivity. }
  assert (SK : skip_instruction 0 (lit "xml version=""" ++ version ++ lit """ encoding=""" ++ encoding ++ [34] ++ [63; 62] ++ 10 :: print 0 x ++ [10]) = Some (10 :: print 0 x ++ [10])).
  { replace (lit "xml version=""" ++ version ++ lit """ encoding=""" ++ encoding ++ [34] ++ [63; 62] ++ 10 :: print 0 x ++ [10])
      with ((lit "xml version=""" ++ version ++ lit """ encoding=""" ++ encoding ++ [34]) ++ 63 :: 62 :: 10 :: print 0 x ++ [10]) by (rewrite <- !app_assoc; reflexivity).
    apply skip_instruction_ok; [|lia]. intros c I. rewrite !in_app_iff in I. destruct I as [I|[I|[I|[I|I]]]]; auto.
    - cbn in I. intuition lia.
    - cbn in I. intuition lia.
    - cbn in I. intuition lia. }
  rewrite H. cbn [app]. rewrite <- !app_assoc. cbn [app]. cbn [app] in SK. rewrite (lex_instruction _ _ _ _ SK). clear SK H.
  destruct (print_lt 0 x) as (r & PE). rewrite PE. change (10 :: (60 :: r) ++ [10]) with ([10] ++ 60 :: (r ++ [10])). rewrite lex_text; [|apply (blank_text 0)|discriminate].
  change (60 :: r ++ [10]) with ((60 :: r) ++ [10]). rewrite <- PE, lex_node by auto. rewrite lex_last. cbn [in_scope]. unfold then_lex. cbn [fst snd app]. reflexivity.
Qed.
