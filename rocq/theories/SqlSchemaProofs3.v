(** Proofs about SqlSchemaModel: the text of the queries. *)
From Coq Require Import String.
From Verif Require Import Base Chars SqlSchemaModel SqlSchemaSpec SqlSchemaProofs SqlSchemaProofs2.
Local Open Scope string_scope.
Local Open Scope list_scope.
Local Open Scope Z_scope.

Definition stop (s : str) : Prop := match s with [] => True | c :: _ => word_char c = false end.

Lemma lex_word_mode w rest : forall acc, forallb word_char w = true -> lex (Word acc) (w ++ rest) = lex (Word (acc ++ w)) rest.
Proof.
  induction w as [|c w IH]; intros acc H; cbn [app]; [now rewrite app_nil_r|]. cbn [forallb] in H. apply andb_true_iff in H.
  destruct H as [Hc Hw]. cbn [lex]. rewrite Hc, IH by exact Hw. now rewrite <- app_assoc.
Qed.
Lemma lex_word_end w rest : stop rest -> lex (Word w) rest = word w :: lex Out rest.
Proof. destruct rest as [|c rest]; cbn [stop lex]; [reflexivity|]. now intros ->. Qed.

Lemma lex_plain w rest : plain w -> stop rest -> lex Out (w ++ rest) = word w :: lex Out rest.
Proof.
  intros (Hne & Hw & _) Hs. destruct w as [|c w]; [contradiction|]. cbn [forallb] in Hw. apply andb_true_iff in Hw.
  destruct Hw as [Hc Hw]. cbn [app lex]. destruct (Z.eqb_spec c quote) as [->|_]; [discriminate Hc|].
  rewrite Hc, lex_word_mode by exact Hw. now apply lex_word_end.
Qed.

Lemma lex_quoted_mode q rest : forall acc, ~ In quote q -> lex (Quoted acc) (q ++ quote :: rest) = Id (acc ++ q) :: lex Out rest.
Proof.
  induction q as [|c q IH]; intros acc H; cbn [app lex].
  - rewrite Z.eqb_refl. now rewrite app_nil_r.
  - destruct (Z.eqb_spec c quote) as [->|Hne]; [exfalso; apply H; left; reflexivity|].
    rewrite IH by (intro; apply H; right; assumption). now rewrite <- app_assoc.
Qed.
Lemma lex_quoted q rest : ~ In quote q -> lex Out (quote :: q ++ quote :: rest) = Id q :: lex Out rest.
Proof. intro H. cbn [lex]. rewrite Z.eqb_refl. now apply lex_quoted_mode. Qed.

(** names of tables and columns *)
Definition dotted (s : str) : Prop := exists w, s = dot :: w /\ forallb word_char w = true.
Definition ok_name (s : str) : Prop := plain s \/ dotted s.

Lemma word_chars_no_quote w : forallb word_char w = true -> ~ In quote w.
Proof. intros H Hin. rewrite forallb_forall in H. apply H in Hin. discriminate Hin. Qed.
Lemma ok_no_quote s : ok_name s -> ~ In quote s.
Proof.
  intros [(_ & H & _)|(w & -> & H)]; [now apply word_chars_no_quote|]. intros [E|E]; [discriminate E|].
  now apply (word_chars_no_quote w).
Qed.

Lemma escape_ok id : ok_name id -> exists s, sqlEscapeIdentifier id = Some s /\
  forall rest, stop rest -> lex Out (s ++ rest) = Id id :: lex Out rest.
Proof.
  intro H. pose proof (ok_no_quote _ H) as Hq. unfold sqlEscapeIdentifier.
  assert (Hquoted : forall rest, lex Out ((lit """" ++ id ++ lit """") ++ rest) = Id id :: lex Out rest).
  { intro rest. change (lit """") with [quote]. rewrite <- !app_assoc. cbn [app]. now apply lex_quoted. }
  destruct id as [|c id']; [destruct H as [(H & _)|(w & H & _)]; [contradiction|discriminate]|].
  destruct ((c =? 46) || isSqliteKeyWord (c :: id')) eqn:E.
  - eexists. split; [reflexivity|]. intros rest _. apply Hquoted.
  - eexists. split; [reflexivity|]. intros rest Hs. apply orb_false_iff in E. destruct E as [E1 E2].
    destruct H as [H|(w & [= -> _] & _)]; [|discriminate E1].
    rewrite (lex_plain _ _ H Hs). f_equal. unfold word. destruct H as (_ & _ & Hd). cbn [hd] in Hd. rewrite Hd.
    unfold isSqliteKeyWord in E2. apply orb_false_iff in E2. destruct E2 as [_ E2]. unfold keyword. now rewrite E2.
Qed.

(** ** what a list of pieces is read as *)
Definition emits (l : list (option str)) (ts : list token) : Prop :=
  exists s, write l = Some s /\ forall rest, stop rest -> lex Out (s ++ rest) = ts ++ lex Out rest.
Definition sealed (l : list (option str)) (ts : list token) : Prop :=
  exists s, write l = Some s /\ forall rest, lex Out (s ++ rest) = ts ++ lex Out rest.
Definition leads (l : list (option str)) : Prop := forall s, write l = Some s -> stop s.

Lemma write_app l1 l2 : write (l1 ++ l2) = match write l1, write l2 with Some a, Some b => Some (a ++ b) | _, _ => None end.
Proof.
  induction l1 as [|[x|] l1 IH]; cbn [app write]; [destruct (write l2); reflexivity| |reflexivity].
  rewrite IH. destruct (write l1), (write l2); try reflexivity. now rewrite app_assoc.
Qed.
Lemma sealed_emits l ts : sealed l ts -> emits l ts.
Proof. intros (s & H & L). exists s. auto. Qed.
Lemma sealed_nil : sealed [] [].
Proof. exists []. split; reflexivity. Qed.
Lemma sealed_emits_app l1 t1 l2 t2 : sealed l1 t1 -> emits l2 t2 -> emits (l1 ++ l2) (t1 ++ t2).
Proof.
  intros (s1 & W1 & L1) (s2 & W2 & L2). exists (s1 ++ s2). rewrite write_app, W1, W2. split; [reflexivity|].
  intros rest H. now rewrite <- !app_assoc, L1, L2.
Qed.
Lemma sealed_app l1 t1 l2 t2 : sealed l1 t1 -> sealed l2 t2 -> sealed (l1 ++ l2) (t1 ++ t2).
Proof.
  intros (s1 & W1 & L1) (s2 & W2 & L2). exists (s1 ++ s2). rewrite write_app, W1, W2. split; [reflexivity|].
  intros rest. now rewrite <- !app_assoc, L1, L2.
Qed.
Lemma stop_app a b : stop a -> stop b -> stop (a ++ b).
Proof. destruct a; auto. Qed.
Lemma emits_app l1 t1 l2 t2 : emits l1 t1 -> emits l2 t2 -> leads l2 -> emits (l1 ++ l2) (t1 ++ t2).
Proof.
  intros (s1 & W1 & L1) (s2 & W2 & L2) Hl. exists (s1 ++ s2). rewrite write_app, W1, W2. split; [reflexivity|].
  intros rest H. rewrite <- !app_assoc, L1, L2; auto. apply stop_app; auto.
Qed.
(** a piece that starts with a separator ends the word before it *)
Definition begins (l : list (option str)) : Prop := forall s, write l = Some s -> s <> [] /\ stop s.
Lemma emits_sealed_app l1 t1 l2 t2 : emits l1 t1 -> sealed l2 t2 -> begins l2 -> sealed (l1 ++ l2) (t1 ++ t2).
Proof.
  intros (s1 & W1 & L1) (s2 & W2 & L2) Hl. exists (s1 ++ s2). rewrite write_app, W1, W2. split; [reflexivity|].
  intros rest. destruct (Hl _ W2) as [Hne Hs]. rewrite <- !app_assoc, L1, L2; auto. destruct s2; [contradiction|exact Hs].
Qed.
Lemma begins_leads l : begins l -> leads l.
Proof. intros H s W. now apply H. Qed.
Lemma begins_cons c (s : str) l : word_char c = false -> begins (Some (c :: s) :: l).
Proof. intros H r W. cbn [write] in W. destruct (write l); [|discriminate]. injection W as <-. split; [discriminate|exact H]. Qed.
Lemma leads_nil : leads [].
Proof. intros s [= <-]. exact Logic.I. Qed.
Lemma leads_app l1 l2 : leads l1 -> leads l2 -> leads (l1 ++ l2).
Proof.
  intros H1 H2 s W. rewrite write_app in W. destruct (write l1) as [a|] eqn:E1, (write l2) as [b|] eqn:E2; try discriminate.
  injection W as <-. apply stop_app; auto.
Qed.
Lemma leads_begins_app l1 l2 : leads l1 -> begins l2 -> begins (l1 ++ l2).
Proof.
  intros H1 H2 s W. rewrite write_app in W. destruct (write l1) as [a|] eqn:E1, (write l2) as [b|] eqn:E2; try discriminate.
  injection W as <-. destruct (H2 b E2) as [Hb Sb]. split; [intro H; apply app_eq_nil in H; tauto|]. apply stop_app; auto.
Qed.

Lemma emits_escape id : ok_name id -> emits [sqlEscapeIdentifier id] [Id id].
Proof. intro H. destruct (escape_ok id H) as (s & -> & L). exists s. cbn [write]. rewrite app_nil_r. auto. Qed.
Lemma emits_plain w : plain w -> keyword w = false -> emits [Some w] [Id w].
Proof.
  intros H K. exists w. cbn [write]. rewrite app_nil_r. split; [reflexivity|]. intros rest Hs. rewrite (lex_plain _ _ H Hs).
  unfold word. destruct H as (Hn & _ & Hd). destruct w; [contradiction|]. cbn [hd] in Hd. now rewrite Hd, K.
Qed.

(** reading fixed text, whatever follows it *)
Fixpoint lex_part (m : mode) (s : str) : list token * mode :=
  match s with
  | [] => ([], m)
  | c :: s' =>
      let start :=
        if c =? quote then lex_part (Quoted []) s'
        else if word_char c then lex_part (Word [c]) s'
        else if is_space c then lex_part Out s'
        else let r := lex_part Out s' in (P c :: fst r, snd r) in
      match m with
      | Out => start
      | Word w => if word_char c then lex_part (Word (w ++ [c])) s' else (word w :: fst start, snd start)
      | Quoted q => if c =? quote then let r := lex_part Out s' in (Id q :: fst r, snd r) else lex_part (Quoted (q ++ [c])) s'
      end
  end.
Lemma lex_part_ok s rest : forall m, lex m (s ++ rest) = fst (lex_part m s) ++ lex (snd (lex_part m s)) rest.
Proof.
  induction s as [|c s IH]; intro m; [reflexivity|]. cbn [app lex lex_part].
  destruct m as [|w|q].
  - destruct (c =? quote); [apply IH|]. destruct (word_char c); [apply IH|]. destruct (is_space c); [apply IH|].
    cbn [fst snd app]. now rewrite IH.
  - destruct (word_char c); [apply IH|]. destruct (c =? quote); [cbn [fst snd app]; now rewrite IH|].
    destruct (is_space c); cbn [fst snd app]; now rewrite IH.
  - destruct (c =? quote); [cbn [fst snd app]; now rewrite IH|apply IH].
Qed.
Lemma lex_fixed s ts : lex_part Out s = (ts, Out) -> forall rest, lex Out (s ++ rest) = ts ++ lex Out rest.
Proof. intros H rest. now rewrite lex_part_ok, H. Qed.
Lemma sealed_one s ts : lex_part Out s = (ts, Out) -> sealed [Some s] ts.
Proof. intro H. exists s. cbn [write]. rewrite app_nil_r. split; [reflexivity|]. now apply lex_fixed. Qed.
Lemma sealed_two a b ts : lex_part Out (a ++ b) = (ts, Out) -> sealed [Some a; Some b] ts.
Proof. intro H. exists (a ++ b). cbn [write]. rewrite app_nil_r. split; [reflexivity|]. now apply lex_fixed. Qed.
Ltac literal := first [apply sealed_one | apply sealed_two]; vm_compute; reflexivity.

Lemma emits_cons o l t1 t2 : emits [o] t1 -> emits l t2 -> leads l -> emits (o :: l) (t1 ++ t2).
Proof. intros. now apply (emits_app [o]). Qed.

(** ** separated lists *)
Fixpoint comma_rest {X} (g : X -> list (option str)) (l : list X) : list (option str) :=
  match l with [] => [] | x :: l' => [Some (lit ",")] ++ g x ++ comma_rest g l' end.
Lemma comma_separated_cons {X} (g : X -> list (option str)) x l : comma_separated g (x :: l) = g x ++ comma_rest g l.
Proof.
  unfold comma_separated. cbn [length seq combine map concat fst snd]. f_equal.
  assert (H : forall k, concat (map (fun q => (if Nat.eqb (fst q) 0 then [] else [Some (lit ",")]) ++ g (snd q)) (combine (seq (S k) (length l)) l)) = comma_rest g l).
  { induction l as [|y l IH]; intro k; [reflexivity|]. cbn [length seq combine map concat fst snd Nat.eqb comma_rest].
    rewrite IH. now rewrite <- app_assoc. }
  apply H.
Qed.
Lemma leads_comma_rest {X} (g : X -> list (option str)) l : leads (comma_rest g l).
Proof. destruct l; [exact leads_nil|]. cbn [comma_rest app]. apply begins_leads, begins_cons. reflexivity. Qed.
Lemma sealed_comma : sealed [Some (lit ",")] [p ","].
Proof. literal. Qed.
Lemma comma_rest_ok {X} (g : X -> list (option str)) tok l : (forall x, In x l -> emits (g x) (tok x)) ->
  emits (comma_rest g l) (flat_map (fun x => p "," :: tok x) l).
Proof.
  induction l as [|x l IH]; intro H; cbn [comma_rest flat_map]; [apply sealed_emits, sealed_nil|].
  cbn [app]. change (p "," :: tok x ++ flat_map (fun x => p "," :: tok x) l) with ([p ","] ++ (tok x ++ flat_map (fun x => p "," :: tok x) l)).
  apply (sealed_emits_app [Some (lit ",")]); [exact sealed_comma|]. apply emits_app.
  - apply H. left; reflexivity.
  - apply IH. intros; apply H; right; assumption.
  - apply leads_comma_rest.
Qed.
Lemma separated_cons {X} (tok : X -> list token) x l : separated (p ",") tok (x :: l) = tok x ++ flat_map (fun x => p "," :: tok x) l.
Proof.
  revert x. induction l as [|y l IH]; intro x; [cbn; now rewrite app_nil_r|].
  cbn [flat_map app]. rewrite <- (IH y). reflexivity.
Qed.
Lemma separated_ok {X} (g : X -> list (option str)) tok l : (forall x, In x l -> emits (g x) (tok x)) ->
  emits (comma_separated g l) (separated (p ",") tok l).
Proof.
  destruct l as [|x l]; intro H; [apply sealed_emits, sealed_nil|]. rewrite comma_separated_cons, separated_cons.
  apply emits_app; [apply H; left; reflexivity|apply comma_rest_ok; intros; apply H; right; assumption|apply leads_comma_rest].
Qed.

(** ** the queries *)
Definition ok_type (s : str) : Prop := In s (map lit ["INTEGER"; "TEXT"; "REAL"; "BLOB"]).
Lemma type_ok s : ok_type s -> plain s /\ keyword s = false.
Proof.
  intro H. cbn in H. repeat (destruct H as [<-|H]; [split; [split; [discriminate|split; vm_compute; reflexivity]|vm_compute; reflexivity]|]).
  destruct H.
Qed.

Section Q.
  Context (ref_table : tref -> option table) (ref_name ref_key : tref -> str).

  Record ok_table (t : table) : Prop := {
    ot_name : ok_name (tname t);
    ot_columns : forall c, In c (tcolumns t) -> ok_name (colname c) /\ ok_type (coltype c);
    ot_key : forall i, tkey t = Some i -> exists k, nth_error (tcolumns t) i = Some k;
    ot_refs : forall c r, In c (tcolumns t) -> reference c = Some r -> exists t', ref_table r = Some t'
      /\ ok_name (tname t') /\ tname t' = ref_name r /\ exists k, key_of t' = Some k /\ colname k = ref_key r /\ ok_name (colname k) }.

  Lemma ifne_ok t : sealed (if tifne t then [Some (lit "IF NOT EXISTS ")] else []) (if_not_exists t).
  Proof. unfold if_not_exists. destruct (tifne t); [literal|exact sealed_nil]. Qed.

  Lemma column_ok c : ok_name (colname c) -> ok_type (coltype c) ->
    emits ([sqlEscapeIdentifier (colname c); Some (lit " "); Some (coltype c)] ++
      (if primary c then Some (lit " PRIMARY KEY") :: (if auto c then [Some (lit " AUTOINCREMENT")] else []) else []))
      (create_column c).
  Proof.
    intros Hn Ht. destruct (type_ok _ Ht) as [Tp Tk]. unfold create_column.
    apply emits_app.
    - apply (emits_cons _ _ [Id (colname c)] [Id (coltype c)]); [now apply emits_escape| |apply begins_leads, begins_cons; reflexivity].
      apply (sealed_emits_app [Some (lit " ")] [] [Some (coltype c)]); [literal|now apply emits_plain].
    - destruct (primary c); [|apply sealed_emits, sealed_nil]. destruct (auto c).
      + eexists. split; [reflexivity|]. intros rest Hs.
        change (lit " PRIMARY KEY" ++ lit " AUTOINCREMENT" ++ []) with (lit " PRIMARY KEY " ++ lit "AUTOINCREMENT").
        rewrite <- app_assoc. 
        assert (H : forall r, lex Out (lit " PRIMARY KEY " ++ r) = [kw "PRIMARY"; kw "KEY"] ++ lex Out r) by (apply lex_fixed; vm_compute; reflexivity).
        rewrite H, lex_plain; [reflexivity| |exact Hs]. split; [discriminate|split; vm_compute; reflexivity].
      + eexists. split; [reflexivity|]. intros rest Hs.
        change (lit " PRIMARY KEY" ++ []) with (lit " PRIMARY " ++ lit "KEY"). rewrite <- app_assoc.
        assert (H : forall r, lex Out (lit " PRIMARY " ++ r) = [kw "PRIMARY"] ++ lex Out r) by (apply lex_fixed; vm_compute; reflexivity).
        rewrite H, lex_plain; [reflexivity| |exact Hs]. split; [discriminate|split; vm_compute; reflexivity].
    - destruct (primary c); [apply begins_leads, begins_cons; reflexivity|exact leads_nil].
  Qed.

  Lemma constraint_ok t c : ok_table t -> In c (tcolumns t) ->
    sealed (constraint ref_table c) (create_constraint ref_name ref_key c) /\ leads (constraint ref_table c).
  Proof.
    intros T Hc. unfold constraint, create_constraint. destruct (reference c) as [r|] eqn:Er; [|split; [exact sealed_nil|exact leads_nil]].
    destruct (ot_refs _ T c r Hc Er) as (t' & -> & Hn & Hrn & k & -> & Hk & Hok). rewrite <- Hrn, <- Hk.
    split; [|apply begins_leads, begins_cons; reflexivity].
    apply (sealed_app [Some (lit ",FOREIGN KEY(")] [p ","; kw "FOREIGN"; kw "KEY"; p "("]); [literal|].
    apply (emits_sealed_app [sqlEscapeIdentifier (colname c)] [Id (colname c)]); [apply emits_escape; now apply (ot_columns _ T)| |apply begins_cons; reflexivity].
    apply (sealed_app [Some (lit ") REFERENCES ")] [p ")"; kw "REFERENCES"]); [literal|].
    apply (emits_sealed_app [sqlEscapeIdentifier (tname t')] [Id (tname t')]); [now apply emits_escape| |apply begins_cons; reflexivity].
    apply (sealed_app [Some (lit "(")] [p "("]); [literal|].
    apply (emits_sealed_app [sqlEscapeIdentifier (colname k)] [Id (colname k)]); [now apply emits_escape| |apply begins_cons; reflexivity].
    literal.
  Qed.

  Lemma constraints_ok t l : ok_table t -> (forall c, In c l -> In c (tcolumns t)) ->
    sealed (concat (map (constraint ref_table) l)) (flat_map (create_constraint ref_name ref_key) l) /\ leads (concat (map (constraint ref_table) l)).
  Proof.
    intro T. induction l as [|c l IH]; intro H; cbn [map concat flat_map]; [split; [exact sealed_nil|exact leads_nil]|].
    destruct (constraint_ok t c T) as [H1 H2]; [apply H; left; reflexivity|].
    destruct IH as [H3 H4]; [intros; apply H; right; assumption|]. split; [now apply sealed_app|now apply leads_app].
  Qed.

  Lemma write_somes l : write (map Some l) = Some (concat l).
  Proof. induction l as [|s l IH]; [reflexivity|]. cbn [map write concat]. now rewrite IH. Qed.

  Lemma columns_at_in t l c : In c (columns_at t l) -> In c (tcolumns t).
  Proof.
    unfold columns_at. intro H. apply in_concat in H. destruct H as (x & Hx & Hc). apply in_map_iff in Hx. destruct Hx as (i & <- & _).
    destruct (nth_error (tcolumns t) i) as [d|] eqn:E; [|destruct Hc]. destruct Hc as [<-|[]]. now apply nth_error_In in E.
  Qed.

  Lemma index_ok t cs : ok_table t -> (forall c, In c cs -> In c (tcolumns t)) ->
    sealed ([Some [10]; Some (lit "CREATE INDEX ")] ++ (if tifne t then [Some (lit "IF NOT EXISTS ")] else []) ++
        [Some (lit """idx_"); Some (tname t)] ++
        concat (map (fun c => [Some (lit "_"); Some (colname c)]) cs) ++
        [Some (lit """ ON "); sqlEscapeIdentifier (tname t); Some (lit "(")] ++
        comma_separated (fun c => [sqlEscapeIdentifier (colname c)]) cs ++ [Some (lit ");")]) (create_index t cs).
  Proof.
    intros T Hcs. unfold create_index.
    apply (sealed_app [Some [10]; Some (lit "CREATE INDEX ")] [kw "CREATE"; kw "INDEX"]); [literal|].
    apply sealed_app; [apply ifne_ok|].
    assert (Hname : write ([Some (lit """idx_"); Some (tname t)] ++ concat (map (fun c => [Some (lit "_"); Some (colname c)]) cs))
              = Some (quote :: index_name t cs)).
    { rewrite write_app. cbn [write]. rewrite app_nil_r.
      assert (write (concat (map (fun c => [Some (lit "_"); Some (colname c)]) cs)) = Some (flat_map (fun c => lit "_" ++ colname c) cs)) as ->.
      { clear. induction cs as [|c cs IH]; [reflexivity|]. cbn [map concat flat_map]. rewrite write_app, IH. cbn [write]. now rewrite app_nil_r. }
      unfold index_name. rewrite <- !app_assoc. reflexivity. }
    assert (Hq : ~ In quote (index_name t cs)).
    { unfold index_name. intro H. apply in_app_or in H. destruct H as [H|H]; [cbn in H; intuition discriminate|].
      apply in_app_or in H. destruct H as [H|H]; [now apply (ok_no_quote _ (ot_name _ T))|].
      apply in_flat_map in H. destruct H as (c & Hc & H). apply in_app_or in H. destruct H as [H|H]; [cbn in H; intuition discriminate|].
      apply (ok_no_quote (colname c)); [|exact H]. apply (ot_columns _ T). now apply Hcs. }
    rewrite app_assoc.
    change ([Some (lit """ ON "); sqlEscapeIdentifier (tname t); Some (lit "(")] ++
        comma_separated (fun c => [sqlEscapeIdentifier (colname c)]) cs ++ [Some (lit ");")])
      with ([Some (lit """ ON ")] ++ ([sqlEscapeIdentifier (tname t)] ++ ([Some (lit "(")] ++
        comma_separated (fun c => [sqlEscapeIdentifier (colname c)]) cs ++ [Some (lit ");")]))).
    rewrite app_assoc.
    apply (sealed_app _ [Id (index_name t cs); kw "ON"] _ (Id (tname t) :: p "(" :: separated (p ",") (fun c => [Id (colname c)]) cs ++ [p ")"; p ";"])).
    - eexists. split; [rewrite write_app, Hname; reflexivity|]. intro rest.
      change (lit """ ON ") with (quote :: lit " ON "). cbn [write].
      rewrite app_nil_r, <- app_assoc. cbn [app]. rewrite (lex_quoted _ _ Hq). apply (f_equal (cons _)). apply (lex_fixed (lit " ON ") [kw "ON"]). vm_compute. reflexivity.
    - apply (emits_sealed_app [sqlEscapeIdentifier (tname t)] [Id (tname t)]); [apply emits_escape, (ot_name _ T)| |apply begins_cons; reflexivity].
      apply (sealed_app [Some (lit "(")] [p "("]); [literal|].
      apply emits_sealed_app; [|literal|apply begins_cons; reflexivity].
      apply separated_ok. intros c Hc. apply emits_escape. apply (ot_columns _ T). now apply Hcs.
  Qed.

  Lemma indexes_ok t l : ok_table t ->
    sealed (concat (map (fun index =>
        [Some [10]; Some (lit "CREATE INDEX ")] ++ (if tifne t then [Some (lit "IF NOT EXISTS ")] else []) ++
        [Some (lit """idx_"); Some (tname t)] ++
        concat (map (fun c => [Some (lit "_"); Some (colname c)]) (columns_at t index)) ++
        [Some (lit """ ON "); sqlEscapeIdentifier (tname t); Some (lit "(")] ++
        comma_separated (fun c => [sqlEscapeIdentifier (colname c)]) (columns_at t index) ++
        [Some (lit ");")]) l)) (flat_map (fun ix => create_index t (columns_at t ix)) l).
  Proof.
    intro T. induction l as [|ix l IH]; [exact sealed_nil|]. cbn [map concat flat_map].
    apply sealed_app; [|exact IH]. apply index_ok; [exact T|]. intro c. apply columns_at_in.
  Qed.

  Lemma sealed_tokens l ts : emits l ts -> exists q, write l = Some q /\ sql_tokens q = ts.
  Proof.
    intros (s & W & L). exists s. split; [exact W|]. unfold sql_tokens. rewrite <- (app_nil_r s), L by exact Logic.I.
    cbn. now rewrite app_nil_r.
  Qed.

  Theorem create_ok t : ok_table t -> exists q, createQuery ref_table t = Some q /\ sql_tokens q = create_statement ref_name ref_key t.
  Proof.
    intro T. unfold createQuery, create_statement. apply sealed_tokens.
    apply (sealed_emits_app [Some (lit "CREATE TABLE ")] [kw "CREATE"; kw "TABLE"]); [literal|].
    apply sealed_emits_app; [apply ifne_ok|].
    apply (emits_app [sqlEscapeIdentifier (tname t)] [Id (tname t)]); [apply emits_escape, (ot_name _ T)| |apply begins_leads, begins_cons; reflexivity].
    apply (sealed_emits_app [Some (lit " (")] [p "("]); [literal|].
    destruct (constraints_ok t (tcolumns t) T (fun c H => H)) as [K1 K2].
    assert (Hend : sealed ([Some (lit ");")]) [p ")"; p ";"]) by literal.
    apply emits_app.
    - apply separated_ok. intros c Hc. destruct (ot_columns _ T c Hc). now apply column_ok.
    - apply sealed_emits_app; [exact K1|]. apply (sealed_emits_app [Some (lit ");")] [p ")"; p ";"]); [exact Hend|].
      apply sealed_emits. now apply indexes_ok.
    - apply leads_app; [exact K2|]. apply begins_leads, begins_cons. reflexivity.
  Qed.

  Lemma values_ok t : ok_table t -> sealed (
      [sqlEscapeIdentifier (tname t); Some (lit " (")] ++
      comma_separated (fun c => [sqlEscapeIdentifier (colname c)]) (tcolumns t) ++ [Some (lit ") VALUES (")] ++
      comma_separated (fun _ => [Some (lit "?")]) (tcolumns t) ++ [Some (lit ")")]) (names_and_values t).
  Proof.
    intro T. unfold names_and_values.
    apply (emits_sealed_app [sqlEscapeIdentifier (tname t)] [Id (tname t)]); [apply emits_escape, (ot_name _ T)| |apply begins_cons; reflexivity].
    apply (sealed_app [Some (lit " (")] [p "("]); [literal|].
    apply emits_sealed_app.
    - apply separated_ok. intros c Hc. apply emits_escape. now apply (ot_columns _ T).
    - apply (sealed_app [Some (lit ") VALUES (")] [p ")"; kw "VALUES"; p "("]); [literal|].
      apply emits_sealed_app; [|literal|apply begins_cons; reflexivity].
      apply separated_ok. intros c _. apply sealed_emits. literal.
    - apply begins_cons. reflexivity.
  Qed.

  Theorem insert_ok t : ok_table t -> exists q, insertQuery t = Some q /\ sql_tokens q = insert_statement t.
  Proof.
    intro T. unfold insertQuery, insert_statement.
    set (key := match tkey t with Some _ => match key_of t with Some k => sqlEscapeIdentifier (colname k) | None => None end | None => Some (lit "rowid") end).
    assert (Hkey : emits [key] [Id (match key_of t with Some k => colname k | None => lit "rowid" end)]).
    { unfold key, key_of. destruct (tkey t) as [i|] eqn:E.
      - destruct (ot_key _ T i E) as [k Hk]. rewrite Hk. apply emits_escape. apply (ot_columns _ T). now apply nth_error_In in Hk.
      - apply emits_plain; [split; [discriminate|split; vm_compute; reflexivity]|vm_compute; reflexivity]. }
    assert (Hsplit : [Some (lit "INSERT INTO "); sqlEscapeIdentifier (tname t); Some (lit " (")] ++
      comma_separated (fun c => [sqlEscapeIdentifier (colname c)]) (tcolumns t) ++ [Some (lit ") VALUES (")] ++
      comma_separated (fun _ => [Some (lit "?")]) (tcolumns t) ++ [Some (lit ") RETURNING ")] ++ [key]
      = [Some (lit "INSERT INTO ")] ++ (
      [sqlEscapeIdentifier (tname t); Some (lit " (")] ++
      comma_separated (fun c => [sqlEscapeIdentifier (colname c)]) (tcolumns t) ++ [Some (lit ") VALUES (")] ++
      comma_separated (fun _ => [Some (lit "?")]) (tcolumns t) ++ [Some (lit ") RETURNING ")]) ++ [key]).
    { cbn [app]. rewrite <- !app_assoc. cbn [app]. now rewrite <- app_assoc. }
    rewrite Hsplit. apply sealed_tokens.
    apply (sealed_emits_app [Some (lit "INSERT INTO ")] [kw "INSERT"; kw "INTO"]); [literal|].
    match goal with |- context [names_and_values t ++ [kw "RETURNING"; ?x]] =>
      change (names_and_values t ++ [kw "RETURNING"; x]) with (names_and_values t ++ ([kw "RETURNING"] ++ [x])) end.
    destruct (values_ok t T) as (s & W & L).
    rewrite (app_assoc (names_and_values t)).
    apply sealed_emits_app; [|exact Hkey].
    exists (s ++ lit " RETURNING "). split.
    - clear -W. rewrite !write_app in *. cbn [write] in *.
      destruct (sqlEscapeIdentifier (tname t)); [|discriminate].
      destruct (write (comma_separated (fun c => [sqlEscapeIdentifier (colname c)]) (tcolumns t))); [|discriminate].
      destruct (write (comma_separated (fun _ => [Some (lit "?")]) (tcolumns t))); [|discriminate].
      injection W as <-. rewrite !app_nil_r. change (lit ") RETURNING ") with (lit ")" ++ lit " RETURNING ").
      rewrite <- !app_assoc. cbn [app]. rewrite <- !app_assoc. reflexivity.
    - intro rest. rewrite <- app_assoc, L, <- app_assoc. apply (f_equal (app _)). apply (lex_fixed (lit " RETURNING ") [kw "RETURNING"]). vm_compute. reflexivity.
  Qed.

  Theorem insert_or_replace_ok t : ok_table t -> exists q, insertOrReplaceQuery t = Some q /\ sql_tokens q = insert_or_replace_statement t.
  Proof.
    intro T. unfold insertOrReplaceQuery, insert_or_replace_statement.
    apply sealed_tokens.
    apply (sealed_emits_app [Some (lit "INSERT OR REPLACE INTO ")] [kw "INSERT"; kw "OR"; kw "REPLACE"; kw "INTO"]); [literal|].
    apply sealed_emits. now apply values_ok.
  Qed.

  Theorem select_ok t columns : ok_table t -> (forall c, In c columns -> ok_name c) ->
    exists q, selectQuery t columns [] [] = Some q /\ sql_tokens q = select_statement t columns.
  Proof.
    intros T Hc. unfold selectQuery, select_statement. apply sealed_tokens. rewrite app_nil_r.
    apply (sealed_emits_app [Some (lit "SELECT ")] [kw "SELECT"]); [literal|].
    apply emits_app.
    - destruct columns as [|c cs]; [apply sealed_emits; literal|]. apply separated_ok. intros x Hx. apply emits_escape. now apply Hc.
    - apply (sealed_emits_app [Some (lit " FROM ")] [kw "FROM"]); [literal|]. apply emits_escape, (ot_name _ T).
    - apply begins_leads, begins_cons. reflexivity.
  Qed.
End Q.

(** ** the tables of a schema *)
Section T.
  Context (ifne ic : bool) (oidn : str) (class_name : nat -> str) (class_features : nat -> list feature).

  Local Notation ref_name := (ref_name class_name).
  Local Notation ref_key := (ref_key class_name).

  Context (s : schema) (all : list nat).
  Context (G : good class_name all s) (F : fresh_ok ifne class_name class_features s s).
  Context (Hclass : forall c, In c (keys s) -> plain (class_name c)).
  Context (Hfeature : forall c f, In c (keys s) -> In f (class_features c) -> plain (fname f)).
  Context (Hneeds : closed_metamodel class_features all).
  Context (Hoid : oidn = [] \/ plain oidn).

  Lemma word_lower1 c : word_char (lower1 c) = word_char c.
  Proof. unfold lower1. destruct ((65 <=? c) && (c <=? 90)) eqn:E; [|reflexivity]. unfold word_char, is_digit. lia. Qed.
  Lemma plain_lower w : plain w -> plain (lower w).
  Proof.
    intros (Hn & Hw & Hd). split; [destruct w; [contradiction|discriminate]|]. split.
    - rewrite <- Hw. clear. unfold lower. induction w as [|c w IH]; [reflexivity|]. cbn [map forallb]. now rewrite word_lower1, IH.
    - destruct w as [|c w]; [contradiction|]. cbn [lower map hd] in *. unfold lower1.
      destruct ((65 <=? c) && (c <=? 90)) eqn:E; [unfold is_digit; lia|exact Hd].
  Qed.

  Lemma plain_app a b : plain a -> forallb word_char b = true -> plain (a ++ b).
  Proof.
    intros (Hn & Hw & Hd) Hb. destruct a as [|c a]; [contradiction|]. split; [discriminate|]. split; [|exact Hd].
    rewrite forallb_app, Hw, Hb. reflexivity.
  Qed.
  Lemma plain_class_key c : In c (keys s) -> plain (class_key class_name c).
  Proof. intro H. unfold class_key. apply plain_app; [apply plain_lower; now apply Hclass|vm_compute; reflexivity]. Qed.

  Definition schema_tables : list table :=
    internal_tables ifne ic oidn ++ flat_map (class_tables ifne class_name class_features) (keys s).

  Lemma concrete_plain x : (negb (str_eqb x []) && forallb word_char x && negb (is_digit (hd 0 x)) = true) -> plain x.
  Proof.
    intro H. apply andb_true_iff in H. destruct H as [H H3]. apply andb_true_iff in H. destruct H as [H1 H2].
    split; [intros ->; discriminate H1|]. split; [exact H2|]. now destruct (is_digit (hd 0 x)).
  Qed.
  Lemma concrete_dotted x : (hd 0 x =? dot) && forallb word_char (tl x) = true -> dotted x.
  Proof.
    destruct x as [|c x]; [discriminate|]. cbn [hd tl]. intro H. apply andb_true_iff in H. destruct H as [H1 H2].
    apply Z.eqb_eq in H1. subst c. exists x. auto.
  Qed.

  Lemma ref_internal r : match r with RClass _ => False | _ => True end ->
    exists t', table_of ifne ic oidn s r = Some t' /\ ok_name (tname t') /\ tname t' = ref_name r /\
      exists k, key_of t' = Some k /\ colname k = ref_key r /\ ok_name (colname k).
  Proof.
    intro H. destruct r; [| | | |destruct H].
    1,2,4: eexists; split; [reflexivity|]; split; [right; apply concrete_dotted; vm_compute; reflexivity|]; split; [reflexivity|];
      eexists; split; [reflexivity|]; split; [reflexivity|]; left; apply concrete_plain; vm_compute; reflexivity.
    exists (objectsTable ifne ic oidn). split; [reflexivity|].
    assert (E : tname (objectsTable ifne ic oidn) = lit ".objects" /\ key_of (objectsTable ifne ic oidn) = Some (key_column "objectID")).
    { unfold objectsTable. destruct ic; destruct oidn as [|x w]; try (split; reflexivity); destruct (str_eqb (x :: w) (lit "objectID")); split; reflexivity. }
    destruct E as [E1 E2]. rewrite E1, E2. split; [right; apply concrete_dotted; vm_compute; reflexivity|]. split; [reflexivity|].
    eexists. split; [reflexivity|]. split; [reflexivity|]. left; apply concrete_plain; vm_compute; reflexivity.
  Qed.

  Lemma ref_class c : In c (keys s) ->
    exists t', table_of ifne ic oidn s (RClass c) = Some t' /\ ok_name (tname t') /\ tname t' = ref_name (RClass c) /\
      exists k, key_of t' = Some k /\ colname k = ref_key (RClass c) /\ ok_name (colname k).
  Proof.
    intro H. destruct (find_class_in _ _ H) as [cs Hcs]. cbn [table_of]. rewrite Hcs.
    apply find_class_some in Hcs. destruct (gd_keyed _ _ _ G _ _ Hcs) as (H1 & H2 & H3).
    eexists. split; [reflexivity|]. rewrite H1. split; [left; apply plain_lower; now apply Hclass|]. split; [reflexivity|].
    eexists. split; [unfold key_of; rewrite H2; exact H3|]. split; [reflexivity|]. left. now apply plain_class_key.
  Qed.

  Lemma ref_feature c f r : In c (keys s) -> In f (class_features c) -> needs f -> reftype f = Some r -> In r (keys s).
  Proof.
    intros Hc Hf Hn Hr. apply in_map_iff in Hc. destruct Hc as ([x cs] & Hx & Hin). cbn in Hx. subst x.
    destruct (F c cs Hin) as [_ F2]. exact (F2 f r Hf Hn Hr).
  Qed.

  Lemma ref_column c f col r : In c (keys s) -> In f (class_features c) -> (single f = Some col \/ element f = Some col) -> reference col = Some r ->
    exists t', table_of ifne ic oidn s r = Some t' /\ ok_name (tname t') /\ tname t' = ref_name r /\
      exists k, key_of t' = Some k /\ colname k = ref_key r /\ ok_name (colname k).
  Proof.
    intros Hc Hf Hs Hr.
    assert (Hcase : r = REnums \/ (needs f /\ exists x, reftype f = Some x /\ r = RClass x)).
    { unfold needs. destruct Hs as [Hs|Hs]; [unfold single in Hs|unfold element in Hs];
        destruct (getSQLCodecFeatureKind f); try discriminate Hs; injection Hs as <-; cbn [reference] in Hr; try discriminate Hr;
        try (injection Hr as <-; left; reflexivity);
        (right; split; [auto|]; destruct (reftype f) as [x|]; [|discriminate Hr]; injection Hr as <-; eauto). }
    destruct Hcase as [->|(Hn & x & Hx & ->)]; [apply ref_internal; exact Logic.I|].
    apply ref_class. exact (ref_feature c f x Hc Hf Hn Hx).
  Qed.

  Lemma column_name c f col : In c (keys s) -> In f (class_features c) -> (single f = Some col \/ element f = Some col) ->
    ok_name (colname col) /\ ok_type (coltype col).
  Proof.
    intros Hc Hf Hs. pose proof (Hfeature c f Hc Hf) as Hp.
    destruct Hs as [Hs|Hs]; [unfold single in Hs|unfold element in Hs];
      destruct (getSQLCodecFeatureKind f); try discriminate Hs; injection Hs as <-; cbn [colname coltype];
      (split; [left; first [exact Hp|apply concrete_plain; vm_compute; reflexivity]|unfold ok_type; cbn [map]; cbn [In]; tauto]).
  Qed.

  Lemma in_optional {X} (o : option X) x : In x (optional o) -> o = Some x.
  Proof. destruct o; cbn; intuition congruence. Qed.

  Lemma objects_columns d : In d (tcolumns (objectsTable ifne ic oidn)) ->
    In d [key_column "objectID"; mkC (lit "classID") (lit "INTEGER") false false (Some RClasses);
          mkC (lit "containerID") (lit "INTEGER") false false (Some RObjects); attribute_column (lit "containerFeatureID") (lit "INTEGER")]
    \/ (oidn <> [] /\ d = attribute_column oidn (lit "TEXT")).
  Proof.
    unfold objectsTable. intro H.
    assert (Hbase : forall b : bool, In d (tcolumns (if b
              then add_column (add_column (new_table (lit ".objects") [key_column "objectID"; mkC (lit "classID") (lit "INTEGER") false false (Some RClasses)] ifne)
                     (mkC (lit "containerID") (lit "INTEGER") false false (Some RObjects))) (attribute_column (lit "containerFeatureID") (lit "INTEGER"))
              else new_table (lit ".objects") [key_column "objectID"; mkC (lit "classID") (lit "INTEGER") false false (Some RClasses)] ifne)) ->
              In d [key_column "objectID"; mkC (lit "classID") (lit "INTEGER") false false (Some RClasses);
          mkC (lit "containerID") (lit "INTEGER") false false (Some RObjects); attribute_column (lit "containerFeatureID") (lit "INTEGER")]).
    { intros [|]; cbn -[lit]; tauto. }
    destruct oidn as [|x w]; [left; exact (Hbase _ H)|].
    destruct (str_eqb (x :: w) (lit "objectID")); [left; exact (Hbase _ H)|].
    cbn [add_column tcolumns] in H. apply in_app_or in H. destruct H as [H|[<-|[]]]; [left; exact (Hbase _ H)|].
    right. split; [discriminate|reflexivity].
  Qed.
  Lemma objects_shape : tname (objectsTable ifne ic oidn) = lit ".objects" /\ tkey (objectsTable ifne ic oidn) = Some 0%nat /\
    nth_error (tcolumns (objectsTable ifne ic oidn)) 0 = Some (key_column "objectID").
  Proof. unfold objectsTable. destruct ic; destruct oidn as [|x w]; try (repeat split; reflexivity); destruct (str_eqb (x :: w) (lit "objectID")); repeat split; reflexivity. Qed.

  Ltac closed_columns H := cbn [In] in H; destruct H as [<-|[<-|[<-|[<-|[]]]]].

  Lemma internal_ok t : In t (internal_tables ifne ic oidn) -> ok_table (table_of ifne ic oidn s) ref_name ref_key t.
  Proof.
    intro H. unfold internal_tables in H. cbn [In] in H.
    assert (Hobj : ok_table (table_of ifne ic oidn s) ref_name ref_key (objectsTable ifne ic oidn)).
    { destruct objects_shape as (S1 & S2 & S3). constructor.
      - rewrite S1. right. apply concrete_dotted. vm_compute. reflexivity.
      - intros d Hd. apply objects_columns in Hd. destruct Hd as [Hd|[Hne ->]].
        + closed_columns Hd; (split; [left; apply concrete_plain; vm_compute; reflexivity|unfold ok_type; cbn; tauto]).
        + split; [left; destruct Hoid; [contradiction|assumption]|unfold ok_type; cbn; tauto].
      - rewrite S2. intros i [= <-]. eauto.
      - intros d r Hd Hr. apply objects_columns in Hd. destruct Hd as [Hd|[_ ->]]; [|discriminate Hr].
        closed_columns Hd; cbn in Hr; try discriminate Hr; injection Hr as <-; apply ref_internal; exact Logic.I. }
    destruct H as [<-|[<-|[<-|[<-|[<-|[<-|[]]]]]]]; try exact Hobj;
      (constructor;
       [right; apply concrete_dotted; vm_compute; reflexivity
       |intros d Hd; cbn [tcolumns] in Hd; cbn -[lit] in Hd;
        repeat (destruct Hd as [<-|Hd]; [split; [left; apply concrete_plain; vm_compute; reflexivity|unfold ok_type; cbn; tauto]|]); destruct Hd
       |intros i Hi; cbn in Hi; first [discriminate Hi|injection Hi as <-; eexists; reflexivity]
       |intros d r Hd Hr; cbn -[lit] in Hd;
        repeat (destruct Hd as [<-|Hd]; [cbn in Hr; first [discriminate Hr|injection Hr as <-; apply ref_internal; exact Logic.I]|]); destruct Hd]).
  Qed.

  Lemma class_ok c t : In c (keys s) -> In t (class_tables ifne class_name class_features c) -> ok_table (table_of ifne ic oidn s) ref_name ref_key t.
  Proof.
    intros Hc [<-|Ht].
    - constructor; cbn [expected schema_for ctable tname tcolumns tkey SqlSchemaSpec.expected].
      + left. apply plain_lower. now apply Hclass.
      + intros d [<-|Hd].
        * split; [left; now apply plain_class_key|unfold ok_type; cbn; tauto].
        * apply in_flat_map in Hd. destruct Hd as (f & Hf & Hd). apply in_optional in Hd. apply (column_name c f); auto.
      + intros i [= <-]. eexists. reflexivity.
      + intros d r [<-|Hd] Hr; [discriminate Hr|]. apply in_flat_map in Hd. destruct Hd as (f & Hf & Hd). apply in_optional in Hd.
        apply (ref_column c f d r Hc Hf); auto.
    - apply in_flat_map in Ht. destruct Ht as (f & Hf & Ht). apply in_optional in Ht. unfold many in Ht.
      destruct (element f) as [e|] eqn:Ee; [|discriminate]. injection Ht as <-.
      constructor; cbn [tname tcolumns tkey].
      + left. apply plain_app; [apply plain_lower; now apply Hclass|].
        destruct (Hfeature c f Hc Hf) as (_ & Hw & _). change (lit "_" ++ fname f) with (95 :: fname f). cbn [forallb]. now rewrite Hw.
      + intros d [<-|[<-|[<-|[]]]].
        * split; [left; now apply plain_class_key|unfold ok_type; cbn; tauto].
        * split; [left; apply concrete_plain; vm_compute; reflexivity|unfold ok_type; cbn; tauto].
        * apply (column_name c f); auto.
      + intros i [= <-]. eexists. reflexivity.
      + intros d r [<-|[<-|[<-|[]]]] Hr.
        * injection Hr as <-. now apply ref_class.
        * discriminate Hr.
        * apply (ref_column c f e r Hc Hf); auto.
  Qed.

  Lemma schema_tables_ok t : In t schema_tables -> ok_table (table_of ifne ic oidn s) ref_name ref_key t.
  Proof.
    intro H. apply in_app_or in H. destruct H as [H|H]; [now apply internal_ok|]. apply in_flat_map in H.
    destruct H as (c & Hc & H). now apply (class_ok c).
  Qed.
End T.

(** escaping a name twice is the same for plain and dotted names that are not key words... *)
Lemma escape_twice id q : ok_name id -> sqlEscapeIdentifier id = Some q -> exists q', sqlEscapeIdentifier q = Some q' /\ sql_tokens q' = [Id id].
Proof.
  intros H E. pose proof (ok_no_quote _ H) as Hq. destruct (escape_ok id H) as (q0 & E0 & L). rewrite E in E0. injection E0 as <-.
  assert (Hself : sql_tokens q = [Id id]) by (unfold sql_tokens; rewrite <- (app_nil_r q), L by exact Logic.I; reflexivity).
  unfold sqlEscapeIdentifier in E. destruct id as [|c id']; [discriminate|].
  destruct ((c =? 46) || isSqliteKeyWord (c :: id')) eqn:B.
  - injection E as <-.
    exists (lit """" ++ (c :: id') ++ lit """"). split; [|exact Hself].
    change (lit """") with [quote]. cbn [app].
    assert (K : isSqliteKeyWord (quote :: c :: id' ++ [quote]) = false).
    { unfold isSqliteKeyWord. apply orb_false_iff. split.
      - unfold sqliteKeyWords. repeat (cbn [map existsb]; rewrite orb_false_intro; [reflexivity| |]); vm_compute; reflexivity.
      - unfold sqliteKeyWords. cbn [upper map]. vm_compute; reflexivity. }
    unfold sqlEscapeIdentifier.
    change (34 :: c :: id' ++ [quote]) with (quote :: c :: id' ++ [quote]). rewrite K. reflexivity.
  - injection E as <-. exists (c :: id'). split; [|exact Hself]. unfold sqlEscapeIdentifier. now rewrite B.
Qed.
