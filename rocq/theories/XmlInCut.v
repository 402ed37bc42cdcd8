(** Saved documents which are cut off. *)
From Coq Require Import String.
From Verif Require Import Base Chars StrconvModel FragmentModel XmlTokenModel XmlInModel XmlInSpec XmlInHeapSpec XmlTree XmlInWrite XmlInResolve.
From Verif Require XmlOutProofs XmlNsModel.
Open Scope Z_scope.

(** ** The tokens of the beginning of a text *)
Lemma read_name_app : forall r s n c rest, read_name s = (n, c :: rest) -> read_name (s ++ r) = (n, c :: rest ++ r).
Proof.
  intros r s. induction s as [|x s IH]; intros n c rest H; cbn [read_name app] in *; [discriminate|]. destruct (ends_name x).
  - injection H as <- <- <-. reflexivity.
  - destruct (read_name s) as [m t]. cbn [fst snd] in H. injection H as <- ->. rewrite (IH m c rest eq_refl). reflexivity.
Qed.
Lemma skip_white_app : forall r s c rest, skip_white s = c :: rest -> skip_white (s ++ r) = c :: rest ++ r.
Proof. intros r s. induction s as [|x s IH]; intros c rest H; cbn [skip_white app] in *; [discriminate|]. destruct (is_white x); auto. injection H as <- <-. reflexivity. Qed.
Lemma instruction_app : forall r s c rest, skip_instruction c s = Some rest -> skip_instruction c (s ++ r) = Some (rest ++ r).
Proof. intros r s. induction s as [|x s IH]; intros c rest H; cbn [skip_instruction app] in *; [discriminate|]. destruct ((c =? 63) && (x =? 62)); auto. injection H as <-. reflexivity. Qed.
Lemma chars_app : forall r f f' quote b0 b1 s t rest, (f <= f')%nat -> chars f quote b0 b1 s = Some (t, rest) -> (quote = None -> rest <> []) ->
  chars f' quote b0 b1 (s ++ r) = Some (t, rest ++ r).
Proof.
  intros r f. induction f as [|f IH]; intros f' quote b0 b1 s t rest L H NR; [discriminate|]. destruct f' as [|f']; [lia|]. destruct s as [|c s].
  - cbn [chars] in H. destruct quote; [discriminate|]. injection H as <- <-. exfalso. apply NR; auto.
  - cbn [chars app] in *. destruct (match quote with None => (b0 =? 93) && (b1 =? 93) && (c =? 62) | Some _ => false end); [discriminate|].
    destruct (c =? 60). { destruct quote; [discriminate|]. injection H as <- <-. reflexivity. }
    destruct (match quote with Some q => c =? q | None => false end). { injection H as <- <-. reflexivity. }
    destruct (c =? 38).
    + destruct (read_name s) as [e q] eqn:RN. destruct q as [|c' q]; [discriminate|]. rewrite (read_name_app r s e c' q RN). destruct (c' =? 59); [|discriminate]. destruct (XmlTokenModel.reference e); [|discriminate].
      destruct (chars f quote 0 0 q) as [[t' rest']|] eqn:C; [|discriminate]. injection H as <- <-. rewrite (IH f' quote 0 0 q t' rest' ltac:(lia) C NR). reflexivity.
    + destruct (negb (allowed c)); [discriminate|]. destruct (chars f quote b1 c s) as [[t' rest']|] eqn:C; [|discriminate]. injection H as <- <-. rewrite (IH f' quote b1 c s t' rest' ltac:(lia) C NR). reflexivity.
Qed.
Lemma attrs_app : forall r f f' s l e rest, (f <= f')%nat -> read_attrs f s = Some (l, e, rest) -> read_attrs f' (s ++ r) = Some (l, e, rest ++ r).
Proof.
  intros r f. induction f as [|f IH]; intros f' s l e rest L H; [discriminate|]. destruct f' as [|f']; [lia|]. cbn [read_attrs] in *.
  destruct (skip_white s) as [|c q] eqn:SW; [discriminate|]. rewrite (skip_white_app r s c q SW).
  destruct (c =? 62). { injection H as <- <- <-. reflexivity. }
  destruct (c =? 47). { destruct q as [|c' q]; [discriminate|]. cbn [app]. destruct (c' =? 62); [|discriminate]. injection H as <- <- <-. reflexivity. }
  destruct (read_name (c :: q)) as [n t] eqn:RN. destruct n as [|x n]; [discriminate|]. destruct (nsname (x :: n)) as [[p lo]|] eqn:NS; [|discriminate].
  destruct (skip_white t) as [|eq r'] eqn:SW2; [discriminate|]. assert (T : exists ct t', t = ct :: t') by (destruct t as [|ct t']; [discriminate|eauto]). destruct T as (ct & t' & ->).
  change (c :: q ++ r) with ((c :: q) ++ r). rewrite (read_name_app r (c :: q) (x :: n) ct t' RN), NS. change (ct :: t' ++ r) with ((ct :: t') ++ r). rewrite (skip_white_app r _ _ _ SW2).
  destruct (eq =? 61); [|discriminate]. destruct (skip_white r') as [|qu r''] eqn:SW3; [discriminate|]. rewrite (skip_white_app r _ _ _ SW3). destruct ((qu =? 34) || (qu =? 39)); [|discriminate].
  destruct (chars (S (length r'')) (Some qu) 0 0 r'') as [[v rest']|] eqn:C; [|discriminate]. rewrite (chars_app r (S (length r'')) (S (length (r'' ++ r))) (Some qu) 0 0 r'' v rest'); [|rewrite app_length; lia|exact C|discriminate].
  destruct (read_attrs f rest') as [[[l' e'] rest'']|] eqn:RA; [|discriminate]. injection H as <- <- <-. rewrite (IH f' rest' l' e' rest'' ltac:(lia) RA). reflexivity.
Qed.

(** what is read of the first part is what is read of all, but for a text which may be cut *)
Definition beginning (tp ts : list token) : Prop := exists tp0 more, ts = tp0 ++ more /\ (tp = tp0 \/ exists t, tp = tp0 ++ [TText t]).
Lemma beginning_cons : forall l tp ts, beginning tp ts -> beginning (l ++ tp) (l ++ ts).
Proof.
  intros l tp ts (tp0 & more & -> & H). exists (l ++ tp0), more. split; [apply app_assoc|]. destruct H as [->|(t & ->)]; auto. right. exists t. apply app_assoc.
Qed.
Lemma beginning_none : forall ts, beginning [] ts.
Proof. intros ts. exists [], ts. auto. Qed.
Lemma lex_app : forall r f open p tp b f' ts, lex f open p = (tp, b) -> lex f' open (p ++ r) = (ts, true) -> beginning tp ts.
Proof.
  intros r f. induction f as [|f IH]; intros open p tp b f' ts H G. { cbn in H. injection H as <- <-. apply beginning_none. }
  destruct f' as [|f']; [discriminate|].
  assert (NEXT : forall l o q, (let '(ts', ok) := lex f o q in (l ++ ts', ok)) = (tp, b) -> (let '(ts', ok) := lex f' o (q ++ r) in (l ++ ts', ok)) = (ts, true) -> beginning tp ts).
  { intros l o q. destruct (lex f o q) as [t1 b1] eqn:L1. destruct (lex f' o (q ++ r)) as [t2 b2] eqn:L2. intros E1 E2. injection E1 as <- <-. injection E2 as <- ->. apply beginning_cons. eapply IH; eauto. }
  assert (FAIL : ([], false) = (tp, b) -> beginning tp ts) by (intros E; injection E as <- <-; apply beginning_none).
  destruct p as [|c p]. { cbn [lex] in H. injection H as <- <-. apply beginning_none. }
  cbn [lex app] in H, G. destruct (c =? 60).
  - destruct p as [|c' p]; [auto|]. cbn [app] in G. destruct (c' =? 63).
    + destruct (skip_instruction 0 p) as [q|] eqn:SI; [|auto]. rewrite (instruction_app r _ _ _ SI) in G. exact (NEXT [TOther] _ _ H G).
    + destruct (c' =? 47).
      * destruct (read_name p) as [n q] eqn:RN. destruct open as [|[m e] open]; [destruct (skip_white q); auto|]. destruct (skip_white q) as [|c'' rest] eqn:SW; [auto|].
        assert (T : exists ct t', q = ct :: t') by (destruct q as [|ct t']; [discriminate|eauto]). destruct T as (ct & t' & ->). rewrite (read_name_app r p n ct t' RN) in G. change (ct :: t' ++ r) with ((ct :: t') ++ r) in G. rewrite (skip_white_app r _ _ _ SW) in G.
        destruct ((c'' =? 62) && str_eqb n m); [|auto]. exact (NEXT [TEnd] _ _ H G).
      * destruct (read_name (c' :: p)) as [n q] eqn:RN. destruct n as [|x n]; [auto|]. destruct (nsname (x :: n)) as [[pr lo]|] eqn:NS; [|auto].
        destruct (read_attrs (S (length q)) q) as [[[attrs empty] rest]|] eqn:RA; [|auto].
        assert (T : exists ct t', q = ct :: t') by (destruct q as [|ct t']; [discriminate|eauto]). destruct T as (ct & t' & ->).
        change (c' :: p ++ r) with ((c' :: p) ++ r) in G. rewrite (read_name_app r (c' :: p) (x :: n) ct t' RN), NS in G. change (ct :: t' ++ r) with ((ct :: t') ++ r) in G.
        rewrite (attrs_app r (S (length (ct :: t'))) (S (length ((ct :: t') ++ r))) _ _ _ _ ltac:(rewrite app_length; lia) RA) in G. destruct empty; [exact (NEXT [_; _] _ _ H G)|exact (NEXT [_] _ _ H G)].
  - destruct (chars (S (length (c :: p))) None 0 0 (c :: p)) as [[t rest]|] eqn:C; [|auto]. destruct rest as [|y rest].
    + destruct (lex f open []) as [t1 b1] eqn:L1. assert (T1 : t1 = []) by (destruct f; cbn in L1; injection L1 as <- <-; auto). subst t1. injection H as <- <-.
      destruct (chars (S (length (c :: p ++ r))) None 0 0 (c :: p ++ r)) as [[t' rest']|]; [|discriminate]. destruct (lex f' open rest') as [t2 b2]. injection G as <- ->.
      exists [], (TText t' :: t2). split; auto. right. exists t. auto.
    + rewrite (chars_app r (S (length (c :: p))) (S (length ((c :: p) ++ r))) None 0 0 (c :: p) t (y :: rest) ltac:(rewrite app_length; lia) C ltac:(discriminate) : chars (S (length (c :: p ++ r))) None 0 0 (c :: p ++ r) = _) in G.
      exact (NEXT [_] _ _ H G).
Qed.

(** ** Balance *)
Fixpoint run (n : nat) (ts : list token) : option nat :=
  match ts with
  | [] => Some n
  | TStart _ _ _ :: ts' => run (S n) ts'
  | TEnd :: ts' => match n with O => None | S m => run m ts' end
  | _ :: ts' => run n ts'
  end.
Lemma run_app : forall a b n, run n (a ++ b) = match run n a with Some m => run m b | None => None end.
Proof. induction a as [|t a IH]; intros b n; cbn [run app]; auto. destruct t; auto. destruct n; auto. Qed.
Lemma lex_run : forall f open p tp, lex f open p = (tp, true) -> run (length open) tp = Some 0%nat.
Proof.
  induction f as [|f IH]; intros open p tp H; [discriminate|].
  assert (NEXT : forall l o q, (let '(ts', ok) := lex f o q in (l ++ ts', ok)) = (tp, true) -> run (length open) l = Some (length o) -> run (length open) tp = Some 0%nat).
  { intros l o q. destruct (lex f o q) as [t1 b1] eqn:L1. intros E R. injection E as <- ->. rewrite run_app, R. eapply IH; eauto. }
  destruct p as [|c p]. { cbn [lex] in H. destruct open; injection H as <-; auto. discriminate. }
  cbn [lex] in H. destruct (c =? 60).
  - destruct p as [|c' p]; [discriminate|]. destruct (c' =? 63). { destruct (skip_instruction 0 p); [|discriminate]. exact (NEXT [TOther] _ _ H eq_refl). }
    destruct (c' =? 47).
    + destruct (read_name p) as [n q]. destruct open as [|[m e] open]; [destruct (skip_white q); discriminate|]. destruct (skip_white q) as [|c'' rest]; [discriminate|]. destruct ((c'' =? 62) && str_eqb n m); [|discriminate]. exact (NEXT [TEnd] _ _ H eq_refl).
    + destruct (read_name (c' :: p)) as [n q]. destruct n as [|x n]; [discriminate|]. destruct (nsname (x :: n)) as [[pr lo]|]; [|discriminate]. destruct (read_attrs (S (length q)) q) as [[[attrs empty] rest]|]; [|discriminate]. destruct empty; [exact (NEXT [_; _] _ _ H eq_refl)|exact (NEXT [_] _ _ H eq_refl)].
  - destruct (chars (S (length (c :: p))) None 0 0 (c :: p)) as [[t rest]|]; [|discriminate]. exact (NEXT [_] _ _ H eq_refl).
Qed.
(** no beginning of it closes more than it opens *)
Definition good (ts : list token) : Prop := (forall n, run n ts = Some n) /\ forall u v n, ts = u ++ v -> exists k, run n u = Some (n + k)%nat.
Lemma good_app : forall a b, good a -> good b -> good (a ++ b).
Proof.
  intros a b (A1 & A2) (B1 & B2). split. { intros n. rewrite run_app, A1. auto. }
  intros u v n E. destruct (Nat.le_gt_cases (length u) (length a)) as [L|L].
  - assert (P : a = u ++ skipn (length u) a).
    { pose proof (f_equal (firstn (length u)) E) as X. rewrite firstn_app in X. replace (length u - length a)%nat with 0%nat in X by lia. rewrite firstn_O, app_nil_r, firstn_app, firstn_all, Nat.sub_diag, firstn_O, app_nil_r in X. rewrite <- X at 1. symmetry. apply firstn_skipn. }
    eapply A2. exact P.
  - assert (P : exists w, u = a ++ w /\ b = w ++ v).
    { exists (skipn (length a) u). assert (X : u = a ++ skipn (length a) u). { pose proof (f_equal (firstn (length a)) E) as X. rewrite firstn_app, firstn_all, Nat.sub_diag, firstn_O, app_nil_r, firstn_app in X. replace (length a - length u)%nat with 0%nat in X by lia. rewrite firstn_O, app_nil_r in X. rewrite X at 1. symmetry. apply firstn_skipn. }
      split; auto. rewrite X, <- app_assoc in E. apply app_inv_head in E. auto. }
    destruct P as (w & -> & ->). rewrite run_app, A1. eapply B2. eauto.
Qed.
Lemma good_nil : good [].
Proof. split; auto. intros u v n E. symmetry in E. apply app_eq_nil in E. destruct E as [-> _]. exists 0%nat. cbn. f_equal. lia. Qed.
Lemma good_text : forall t, good [TText t].
Proof.
  intros t. split; auto. intros u v n E. exists 0%nat. destruct u as [|x u]; [cbn; f_equal; lia|]. injection E as <- E. symmetry in E. apply app_eq_nil in E. destruct E as [-> _]. cbn. f_equal. lia.
Qed.
Lemma good_flat : forall {A} (f : A -> list token) l, (forall x, In x l -> good (f x)) -> good (flat_map f l).
Proof. intros A f l. induction l as [|x l IH]; intros H; [apply good_nil|]. cbn [flat_map]. apply good_app; [apply H; cbn; auto|apply IH; intros; apply H; cbn; auto]. Qed.
(** a beginning of an element is balanced only if it is empty or the whole element *)
Lemma wrapped : forall sp lo al mid u v n, good mid -> TStart sp lo al :: mid ++ [TEnd] = u ++ v -> u = [] \/ v = [] \/ exists k, run n u = Some (S n + k)%nat.
Proof.
  intros sp lo al mid u v n G E. destruct u as [|x u]; auto. right. injection E as <- E. destruct v as [|y v] using rev_ind; auto. right.
  rewrite app_assoc in E. apply app_inj_tail in E. destruct E as [E _]. cbn [run]. destruct G as [_ G]. eapply G. eauto.
Qed.
Lemma good_element : forall sp lo al mid, good mid -> good (TStart sp lo al :: mid ++ [TEnd]).
Proof.
  intros sp lo al mid G. split. { intros n. cbn [run]. rewrite run_app. destruct G as [G _]. rewrite G. reflexivity. }
  intros u v n E. destruct (wrapped sp lo al mid u v n G E) as [->|[->|(k & R)]].
  - exists 0%nat. cbn. f_equal. lia.
  - exists 0%nat. rewrite app_nil_r in E. rewrite <- E. cbn [run]. rewrite run_app. destruct G as [G _]. rewrite G. cbn. f_equal. lia.
  - exists (S k). rewrite R. f_equal. lia.
Qed.
Lemma toks_shape : forall x e d, exists sp lo al mid, toks e d x = TStart sp lo al :: mid ++ [TEnd] /\ good mid.
Proof.
  fix IH 1. intros [n attrs c] e d. cbn [toks]. unfold start_token at 1. do 4 eexists. split; [reflexivity|]. destruct c as [|[|z t]|l]; try apply good_nil; [apply good_text|].
  apply good_app; [|apply good_text]. induction l as [|k l IHl]; [apply good_nil|]. cbn [flat_map]. apply good_app; [|exact IHl]. match goal with |- good (?t :: ?l) => change (t :: l) with ([t] ++ l) end. apply good_app; [apply good_text|].
  destruct (IH k (scope_of e attrs) (d + 1)) as (sp & lo & al & mid & -> & G). apply good_element. auto.
Qed.

(** ** The cut document *)
Section Cut.
Context {V : Type} (M : meta V) (op : options) (W : writing).
Lemma steps_front : forall a b (s s' : reader V), steps M op (a ++ b) s = Ok s' -> exists s1, steps M op a s = Ok s1 /\ steps M op b s1 = Ok s'.
Proof.
  induction a as [|t a IH]; intros b s s' H; cbn [steps app] in *; eauto. destruct (step M op t s) as [s1| | |]; try discriminate. cbn [obind'] in *. auto.
Qed.
Lemma text_holds : forall d t s, holds_document M op W d (addText t s) <-> holds_document M op W d s.
Proof. intros d t s. unfold addText. destruct (textBuilder s); [|tauto]. unfold holds_document. cbn. tauto. Qed.

Lemma cut_off : forall version encoding d, op_deferred op = true -> id_attribute_ok op -> spaces_ok op W -> valid M op W (linkable M op W d) d ->
  (forall c f g, In f (m_features M c) -> In g (m_features M c) -> m_name M f = m_name M g -> f = g) -> Z.of_nat (dsize d) < 2 ^ 63 ->
  no_question version -> no_question encoding ->
  exists text, save M op W version encoding d = Some text /\
    forall p r, text = p ++ r -> exists s, decode M op p = Ok s /\ (In Syntax (errors s) \/ nothing s \/ holds_document M op W d s).
Proof.
  intros version encoding d DF ID SP VD NAMES SIZE NV NE. destruct (round_trip M op W version encoding d DF ID SP VD NAMES SIZE NV NE) as (text & s & SV & DC & HD). exists text. split; auto. intros p r E.
  set (target := linkable M op W d) in *. assert (CN : XmlOutSpec.name (w_class W (d_class d))) by (destruct VD as [c id slots CO ND PI H]; apply (class_name M W target c CO)).
  assert (SV' : save M op W version encoding d = Some (header version encoding ++ [10] ++ print 0 (document_tree M op W d) ++ [10])) by (eapply save_tree; eauto).
  assert (TX : text = header version encoding ++ [10] ++ print 0 (document_tree M op W d) ++ [10]) by congruence.
  assert (TS : tokens_of text = (TOther :: TText [10] :: toks [] 0 (document_tree M op W d) ++ [TText [10]], true)) by (rewrite TX; apply tokens_document; auto; eapply document_wf; eauto).
  destruct (toks_shape (document_tree M op W d) [] 0) as (sp & lo & al & mid & TK & GM). rewrite TK in TS.
  unfold decode in DC. rewrite TS in DC. set (whole := TStart sp lo al :: mid ++ [TEnd]) in *. change (TOther :: TText [10] :: whole ++ [TText [10]]) with ([TOther; TText [10]] ++ whole ++ [TText [10]]) in DC, TS.
  destruct (steps M op ([TOther; TText [10]] ++ whole ++ [TText [10]]) new_reader) as [s0| | |] eqn:ST; try discriminate. cbn [obind'] in DC. injection DC as ->.
  unfold decode. destruct (tokens_of p) as [tp fine] eqn:TP. unfold tokens_of in TP, TS. rewrite E in TS. destruct (lex_app r _ _ _ _ _ _ _ TP TS) as (tp0 & more & SPLIT & TPE).
  assert (S0 : exists s1, steps M op tp0 new_reader = Ok s1 /\ steps M op more s1 = Ok s) by (apply steps_front; rewrite <- SPLIT; exact ST). destruct S0 as (s1 & ST1 & ST2).
  assert (S1 : exists s2, steps M op tp new_reader = Ok s2 /\ (s2 = s1 \/ exists t, s2 = addText t s1)).
  { destruct TPE as [->|(t & ->)]; [eauto|]. exists (addText t s1). split; [|eauto]. clear - ST1. revert ST1. generalize (@new_reader V). induction tp0 as [|x tp0 IH]; intros n H; cbn [steps app] in *; [injection H as ->; reflexivity|]. destruct (step M op x n); try discriminate. cbn [obind'] in *. auto. }
  destruct S1 as (s2 & ST3 & S2). rewrite ST3. cbn [obind']. eexists. split; [reflexivity|]. destruct fine; [|left; cbn; apply in_or_app; right; cbn; auto]. right.
  assert (RN : run 0 tp0 = Some 0%nat). { pose proof (lex_run _ _ _ _ TP) as R. cbn [length] in R. destruct TPE as [->|(t & ->)]; auto. rewrite run_app in R. destruct (run 0 tp0); [|discriminate]. exact R. }
  assert (NT : s1 = new_reader -> nothing s2) by (intros ->; destruct S2 as [->|(t & ->)]; repeat split).
  assert (HS : holds_document M op W d s1 -> holds_document M op W d s2) by (intros H; destruct S2 as [->|(t & ->)]; auto; apply text_holds; auto).
  destruct tp0 as [|x tp0]. { left. apply NT. cbn in ST1. injection ST1 as <-. auto. }
  cbn [app] in SPLIT. injection SPLIT as <- SPLIT. destruct tp0 as [|x tp0]. { left. apply NT. cbn in ST1. injection ST1 as <-. auto. }
  cbn [app] in SPLIT. injection SPLIT as <- SPLIT. change (TStart sp lo al :: (mid ++ [TEnd]) ++ [TText [10]]) with (whole ++ [TText [10]]) in SPLIT. cbn [run] in RN.
  destruct more as [|y more _] using rev_ind.
  - right. apply HS. cbn in ST2. injection ST2 as ->. exact HD.
  - rewrite app_assoc in SPLIT. apply app_inj_tail in SPLIT. destruct SPLIT as [SPLIT <-]. destruct (wrapped sp lo al mid tp0 more 0 GM SPLIT) as [->|[->|(k & R)]].
    + left. apply NT. cbn in ST1. injection ST1 as <-. auto.
    + right. apply HS. cbn in ST2. injection ST2 as <-. eapply text_holds. exact HD.
    + rewrite R in RN. discriminate.
Qed.
End Cut.
