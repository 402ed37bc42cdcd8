(** What the tables hold after saving. *)
From Coq Require Import String.
From Verif Require Import Base Chars StrconvModel SqlSchemaModel SqlValueModel SqlDocModel SqlDocSpec.
Local Open Scope list_scope.
Local Open Scope Z_scope.

Lemma filter_nil_all {A} (p : A -> bool) l : (forall x, In x l -> p x = false) -> filter p l = [].
Proof.
  induction l as [|x l IH]; intro H; [reflexivity|]. cbn [filter]. rewrite (H x (or_introl eq_refl)). apply IH. intros y Hy. apply H. now right.
Qed.
Lemma NoDup_snoc {A} (l : list A) x : NoDup l -> ~ In x l -> NoDup (l ++ [x]).
Proof.
  intros H Hx. induction H as [|y l Hy H IH]; cbn [app]; [constructor; [auto|constructor]|]. constructor.
  - intro Q. apply in_app_iff in Q. destruct Q as [Q|[<-|[]]]; [contradiction|]. apply Hx. now left.
  - apply IH. intro Q. apply Hx. now right.
Qed.
Lemma Forall2_impl {A B} (R Q : A -> B -> Prop) l1 l2 : (forall a b, R a b -> Q a b) -> Forall2 R l1 l2 -> Forall2 Q l1 l2.
Proof. intros H F. induction F; constructor; auto. Qed.

Section Save.
  Context {D C : Type} (M : meta D C) (G : source D) (O : options) (root : nat).
  Notation state := (@state C).
  Notation features o := (all_features M (oclass G o)).
  Notation intended := (intended M G O).
  Notation encodeObject := (encodeObject M G O).

  Lemma encodedValue_intended o f :
    encodedValue M G O o f = Some (intended o f) \/ encodedValue M G O o f = None /\ intended o f = [].
  Proof using. unfold encodedValue, SqlDocSpec.intended. destruct (value G o f); [auto|]. destruct (_ && _); auto. Qed.

  (** ** rows of an object *)
  Definition crow (s : state) (c : nat) (j : Z) := filter (fun r => Nat.eqb (c_class r) c && (c_id r =? j)) (classes (tables s)).
  Definition lrow (s : state) (f : nat) (j : Z) := filter (fun r => Nat.eqb (t_feature r) f && (t_id r =? j)) (lists (tables s)).

  Record wf (s : state) : Prop := mkWf {
    w_next : 1 <= next s;
    w_range : forall o i, sid s o = Some i -> 1 <= i < next s;
    w_inj : forall o o' i, sid s o = Some i -> sid s o' = Some i -> o = o';
    w_obj : forall r, In r (objects (tables s)) -> exists o, sid s o = Some (r_id r) /\ r_class r = oclass G o /\ exists a b, r_columns r = columns_of G O o a b;
    w_has : forall o i, sid s o = Some i -> exists r, In r (objects (tables s)) /\ r_id r = i;
    w_nodup : NoDup (map r_id (objects (tables s)));
    w_cls : forall r, In r (classes (tables s)) -> exists o, sid s o = Some (c_id r) /\ In (c_class r) (hierarchy M (oclass G o));
    w_lst : forall r, In r (lists (tables s)) -> exists o, sid s o = Some (t_id r) /\ In (t_feature r) (features o) }.

  Record ext (e : Z) (s s' : state) : Prop := mkExt {
    e_next : next s <= next s';
    e_sid : forall o i, sid s o = Some i -> sid s' o = Some i;
    e_new : forall o i, sid s o = None -> sid s' o = Some i -> next s <= i;
    e_cls : forall c j, j < next s -> j <> e -> crow s' c j = crow s c j;
    e_lst : forall f j, j < next s -> j <> e -> lrow s' f j = lrow s f j;
    e_contents : contents (tables s') = contents (tables s) }.

  Lemma ext_refl e s : ext e s s.
  Proof using. constructor; auto; try lia; try congruence. Qed.
  Lemma ext_trans e s s' s'' : ext e s s' -> ext e s' s'' -> ext e s s''.
  Proof using.
    intros A B. constructor.
    - pose proof (e_next _ _ _ A). pose proof (e_next _ _ _ B). lia.
    - intros o i H. apply (e_sid _ _ _ B). now apply (e_sid _ _ _ A).
    - intros o i H H'. destruct (sid s' o) as [k|] eqn:E.
      + pose proof (e_sid _ _ _ B _ _ E) as Q. rewrite H' in Q. injection Q as <-. exact (e_new _ _ _ A _ _ H E).
      + pose proof (e_new _ _ _ B _ _ E H'). pose proof (e_next _ _ _ A). lia.
    - intros c j H H'. pose proof (e_next _ _ _ A). rewrite (e_cls _ _ _ B) by lia. now apply (e_cls _ _ _ A).
    - intros c j H H'. pose proof (e_next _ _ _ A). rewrite (e_lst _ _ _ B) by lia. now apply (e_lst _ _ _ A).
    - now rewrite (e_contents _ _ _ B), (e_contents _ _ _ A).
  Qed.
  Lemma ext_weaken e s s' : ext 0 s s' -> wf s' -> wf s -> ext e s s'.
  Proof using.
    intros A W' W. constructor; try apply A.
    - intros c j H H'. destruct (Z.eq_dec j 0) as [->|]; [|now apply (e_cls _ _ _ A)].
      unfold crow. transitivity (@nil (@class_row C)); [|symmetry]; apply filter_nil_all; intros r Hr.
      + destruct (w_cls _ W' _ Hr) as [o [E _]]. apply (w_range _ W') in E. destruct (Z.eqb_spec (c_id r) 0); [lia|apply andb_false_r].
      + destruct (w_cls _ W _ Hr) as [o [E _]]. apply (w_range _ W) in E. destruct (Z.eqb_spec (c_id r) 0); [lia|apply andb_false_r].
    - intros c j H H'. destruct (Z.eq_dec j 0) as [->|]; [|now apply (e_lst _ _ _ A)].
      unfold lrow. transitivity (@nil (@list_row C)); [|symmetry]; apply filter_nil_all; intros r Hr.
      + destruct (w_lst _ W' _ Hr) as [o [E _]]. apply (w_range _ W') in E. destruct (Z.eqb_spec (t_id r) 0); [lia|apply andb_false_r].
      + destruct (w_lst _ W _ Hr) as [o [E _]]. apply (w_range _ W) in E. destruct (Z.eqb_spec (t_id r) 0); [lia|apply andb_false_r].
  Qed.

  (** ** what the columns hold *)
  Definition col_ok (s : state) (i : Z) (f : nat) (x : item D) (c : @column C) : Prop :=
    match fkind M f, x with
    | (sfkObject | sfkObjectList), IObj t => exists k, sid s t = Some k /\ c = CObj k
    | (sfkObjectReference | sfkObjectReferenceList), IObj t =>
        (exists k, sid s t = Some k /\ c = CText (encodeReference k (uri G t))) \/
        ((forall k, sid s t = Some k -> i < k) /\ c = CText (encodeReference 0 (uri G t)))
    | _, IData d => c = CData (cell M f d)
    | _, IObj _ => c = CNull
    end.
  Lemma col_ok_ext e s s' i f x c : ext e s s' -> i < next s -> col_ok s i f x c -> col_ok s' i f x c.
  Proof using.
    intros A Hi. unfold col_ok. destruct (fkind M f), x as [d|t]; auto.
    - intros [k [H E]]. exists k. split; [now apply (e_sid _ _ _ A)|exact E].
    - intros [k [H E]]. exists k. split; [now apply (e_sid _ _ _ A)|exact E].
    - intros [[k [H E]]|[H E]]; [left; exists k; split; [now apply (e_sid _ _ _ A)|exact E]|right; split; [|exact E]].
      intros k Hk. destruct (sid s t) as [k'|] eqn:Q; [|pose proof (e_new _ _ _ A _ _ Q Hk); lia].
      pose proof (e_sid _ _ _ A _ _ Q) as R. rewrite R in Hk. injection Hk as <-. now apply H.
    - intros [[k [H E]]|[H E]]; [left; exists k; split; [now apply (e_sid _ _ _ A)|exact E]|right; split; [|exact E]].
      intros k Hk. destruct (sid s t) as [k'|] eqn:Q; [|pose proof (e_new _ _ _ A _ _ Q Hk); lia].
      pose proof (e_sid _ _ _ A _ _ Q) as R. rewrite R in Hk. injection Hk as <-. now apply H.
  Qed.

  Fixpoint number (f : nat) (i idx : Z) (cs : list (@column C)) : list list_row :=
    match cs with [] => [] | c :: cs' => mkL f i idx c :: number f i (idx + 1) cs' end.
  Definition rows_ok (s : state) (o : nat) (i : Z) (f : nat) : Prop :=
    exists cs, lrow s f i = number f i 1 cs /\ Forall2 (col_ok s i f) (intended o f) cs.
  Definition cell_ok (s : state) (o : nat) (i : Z) (p : nat * @column C) : Prop :=
    match intended o (fst p) with [] => snd p = CNull | x :: _ => col_ok s i (fst p) x (snd p) end.
  Definition cols_ok (s : state) (o : nat) (i : Z) (fs : list nat) (cols : list (nat * @column C)) : Prop :=
    map fst cols = filter (fun f => is_column (fkind M f)) fs /\ Forall (cell_ok s o i) cols.
  Definition complete (s : state) (o : nat) (i : Z) : Prop :=
    (forall c, In c (hierarchy M (oclass G o)) -> exists cols, crow s c i = [mkR c i cols] /\ cols_ok s o i (own M c) cols) /\
    (forall f, In f (features o) -> is_table (fkind M f) = true -> rows_ok s o i f).

  Lemma cell_ok_ext e s s' o i p : ext e s s' -> i < next s -> cell_ok s o i p -> cell_ok s' o i p.
  Proof using. intros A Hi. unfold cell_ok. destruct (intended o (fst p)); [auto|]. now apply (col_ok_ext e). Qed.
  Lemma cols_ok_ext e s s' o i fs cols : ext e s s' -> i < next s -> cols_ok s o i fs cols -> cols_ok s' o i fs cols.
  Proof using.
    intros A Hi [E F]. split; [exact E|]. eapply Forall_impl; [|exact F]. intros p. now apply (cell_ok_ext e).
  Qed.
  Lemma complete_ext e s s' o i : ext e s s' -> i < next s -> i <> e -> complete s o i -> complete s' o i.
  Proof using.
    intros A Hi Hn [H1 H2]. split.
    - intros c Hc. destruct (H1 _ Hc) as [cols [E F]]. exists cols. rewrite (e_cls _ _ _ A) by auto. split; [exact E|].
      now apply (cols_ok_ext e s).
    - intros f Hf Ht. destruct (H2 _ Hf Ht) as [cs [E F]]. exists cs. rewrite (e_lst _ _ _ A) by auto. split; [exact E|].
      eapply Forall2_impl; [|exact F]. intros x c. now apply (col_ok_ext e).
  Qed.

  Record good (e : Z) (s s' : state) : Prop := mkGood {
    g_wf : wf s';
    g_ext : ext e s s';
    g_done : forall o j, sid s' o = Some j -> next s <= j -> complete s' o j;
    g_reach : forall o, sid s' o <> None -> sid s o <> None \/ reach M G O root o }.

  Lemma good_refl e s : wf s -> good e s s.
  Proof using.
    intro W. constructor; [exact W|apply ext_refl| |auto]. intros o j H H'. apply (w_range _ W) in H. lia.
  Qed.
  Lemma good_trans e s s' s'' : e < next s -> good e s s' -> good e s' s'' -> good e s s''.
  Proof using.
    intros He A B. constructor; [apply B|exact (ext_trans _ _ _ _ (g_ext _ _ _ A) (g_ext _ _ _ B))| |].
    - intros o j H H'. destruct (Z_lt_le_dec j (next s')) as [L|L]; [|now apply (g_done _ _ _ B)].
      destruct (sid s' o) as [k|] eqn:E; [|pose proof (e_new _ _ _ (g_ext _ _ _ B) _ _ E H); lia].
      pose proof (e_sid _ _ _ (g_ext _ _ _ B) _ _ E) as Q. rewrite Q in H. injection H as ->.
      apply (complete_ext e s'); [apply B|exact L|lia|]. now apply (g_done _ _ _ A).
    - intros o H. destruct (g_reach _ _ _ B _ H) as [H1|H1]; [|now right]. now apply (g_reach _ _ _ A).
  Qed.
  Lemma good_weaken e s s' : wf s -> good 0 s s' -> good e s s'.
  Proof using. intros W A. constructor; try apply A. apply ext_weaken; [apply A|apply A|exact W]. Qed.

  (** ** adding rows for the object being written *)
  Lemma add_list_good s o i f idx c : wf s -> sid s o = Some i -> In f (features o) ->
    good i s (add_list s (mkL f i idx c)) /\
    (forall c' j, crow (add_list s (mkL f i idx c)) c' j = crow s c' j) /\
    (forall f' , lrow (add_list s (mkL f i idx c)) f' i = lrow s f' i ++ (if Nat.eqb f f' then [mkL f i idx c] else [])).
  Proof using.
    intros W Hi Hf. split; [|split].
    - constructor.
      + constructor; try apply W. intros r Hr. cbn [add_list tables lists] in Hr. apply in_app_iff in Hr. destruct Hr as [Hr|[<-|[]]].
        * now apply (w_lst _ W).
        * exists o. split; assumption.
      + constructor; cbn [add_list next sid tables classes lists contents]; auto; try lia; try congruence.
        intros f' j _ Hj. unfold lrow. cbn [add_list tables lists]. rewrite filter_app. cbn [filter t_feature t_id].
        destruct (Z.eqb_spec i j); [congruence|]. rewrite andb_false_r. apply app_nil_r.
      + intros o' j H H'. cbn [add_list sid] in H. apply (w_range _ W) in H. lia.
      + intros o' H. left. exact H.
    - reflexivity.
    - intro f'. unfold lrow. cbn [add_list tables lists]. rewrite filter_app. cbn [filter t_feature t_id].
      rewrite Z.eqb_refl, andb_true_r. reflexivity.
  Qed.
  Lemma add_class_good s o i c cols : wf s -> sid s o = Some i -> In c (hierarchy M (oclass G o)) ->
    good i s (add_class s (mkR c i cols)) /\
    (forall f j, lrow (add_class s (mkR c i cols)) f j = lrow s f j) /\
    (forall c', crow (add_class s (mkR c i cols)) c' i = crow s c' i ++ (if Nat.eqb c c' then [mkR c i cols] else [])).
  Proof using.
    intros W Hi Hf. split; [|split].
    - constructor.
      + constructor; try apply W. intros r Hr. cbn [add_class tables classes] in Hr. apply in_app_iff in Hr. destruct Hr as [Hr|[<-|[]]].
        * now apply (w_cls _ W).
        * exists o. split; assumption.
      + constructor; cbn [add_class next sid tables classes lists contents]; auto; try lia; try congruence.
        intros f' j _ Hj. unfold crow. cbn [add_class tables classes]. rewrite filter_app. cbn [filter c_class c_id].
        destruct (Z.eqb_spec i j); [congruence|]. rewrite andb_false_r. apply app_nil_r.
      + intros o' j H H'. cbn [add_class sid] in H. apply (w_range _ W) in H. lia.
      + intros o' H. left. exact H.
    - reflexivity.
    - intro f'. unfold crow. cbn [add_class tables classes]. rewrite filter_app. cbn [filter c_class c_id].
      rewrite Z.eqb_refl, andb_true_r. reflexivity.
  Qed.

  Section Loops.
    Variable rec : state -> nat -> Z -> Z -> option (state * Z).
    Hypothesis rec_ok : forall s x a b s' k, wf s -> reach M G O root x -> rec s x a b = Some (s', k) ->
      good 0 s s' /\ sid s' x = Some k.
    Variables (o : nat) (i : Z).
    Hypothesis Ho : reach M G O root o.

    Lemma reach_item f x : In f (features o) -> holds_objects M f -> In (IObj x) (intended o f) -> reach M G O root x.
    Proof using Ho. intros Hf Hk Hx. exact (reach_step _ _ _ _ _ _ _ Ho Hf Hk Hx). Qed.

    Lemma encodeItem_ok s f x s' c : wf s -> sid s o = Some i -> In f (features o) -> In x (intended o f) ->
      encodeItem M G rec s i f x = Some (s', c) -> good 0 s s' /\ col_ok s' i f x c.
    Proof using rec_ok Ho.
      intros W Hi Hf Hx. unfold encodeItem, col_ok. pose proof (reach_item f) as R. unfold holds_objects in R.
      destruct (fkind M f) eqn:K, x as [d|t]; try (intro E; injection E as <- <-; split; [now apply good_refl|reflexivity]).
      - destruct (rec s t i (feature_id M f)) as [[s1 k]|] eqn:E; [|discriminate]. intro Q. injection Q as <- <-.
        apply rec_ok in E; [|exact W|apply R; auto]. destruct E as [E1 E2]. split; [exact E1|]. now exists k.
      - destruct (rec s t i (feature_id M f)) as [[s1 k]|] eqn:E; [|discriminate]. intro Q. injection Q as <- <-.
        apply rec_ok in E; [|exact W|apply R; auto]. destruct E as [E1 E2]. split; [exact E1|]. now exists k.
      - intro Q. injection Q as <- <-. split; [now apply good_refl|]. destruct (sid s t) as [k|] eqn:E.
        + left. now exists k.
        + right. split; [congruence|reflexivity].
      - intro Q. injection Q as <- <-. split; [now apply good_refl|]. destruct (sid s t) as [k|] eqn:E.
        + left. now exists k.
        + right. split; [congruence|reflexivity].
    Qed.

    Lemma encodeList_ok f : In f (features o) -> forall l s s' idx, wf s -> sid s o = Some i -> incl l (intended o f) ->
      encodeList M G rec s i f idx l = Some s' ->
      good i s s' /\ (forall c, crow s' c i = crow s c i) /\ (forall f', f' <> f -> lrow s' f' i = lrow s f' i) /\
      exists cs, lrow s' f i = lrow s f i ++ number f i idx cs /\ Forall2 (col_ok s' i f) l cs.
    Proof using rec_ok Ho.
      intro Hf. induction l as [|x l IH]; intros s s' idx W Hi Hl E; cbn [encodeList] in E.
      - injection E as <-. split; [now apply good_refl|split; [auto|split; [auto|]]]. exists []. split; [symmetry; apply app_nil_r|constructor].
      - destruct (encodeItem M G rec s i f x) as [[s1 c]|] eqn:E1; [|discriminate].
        apply encodeItem_ok in E1; auto; [|apply Hl; now left]. destruct E1 as [G1 K1].
        pose proof (w_range _ W _ _ Hi) as Ri.
        pose proof (e_sid _ _ _ (g_ext _ _ _ G1) _ _ Hi) as Hi1.
        destruct (add_list_good s1 o i f idx c (g_wf _ _ _ G1) Hi1 Hf) as [G2 [C2 L2]].
        assert (good i s (add_list s1 (mkL f i idx c))) as G12.
        { eapply good_trans; [lia|apply good_weaken; [exact W|exact G1]|exact G2]. }
        apply IH in E; [|apply G2|exact (e_sid _ _ _ (g_ext _ _ _ G2) _ _ Hi1)|intros y Hy; apply Hl; now right].
        destruct E as [G3 [C3 [L3 [cs [N3 F3]]]]].
        assert (forall f', lrow s1 f' i = lrow s f' i) as L1. { intro f'. apply (e_lst _ _ _ (g_ext _ _ _ G1)); lia. }
        split; [|split; [|split]].
        + eapply good_trans; [lia|exact G12|exact G3].
        + intro c'. rewrite C3, C2. apply (e_cls _ _ _ (g_ext _ _ _ G1)); lia.
        + intros f' Hn. rewrite L3, L2 by exact Hn. destruct (Nat.eqb_spec f f'); [congruence|]. rewrite app_nil_r. apply L1.
        + exists (c :: cs). cbn [number]. rewrite N3, L2, Nat.eqb_refl, L1, <- app_assoc. split; [reflexivity|].
          constructor; [|exact F3]. eapply col_ok_ext; [apply G3|exact (proj2 (w_range _ (g_wf _ _ _ G2) _ _ (e_sid _ _ _ (g_ext _ _ _ G2) _ _ Hi1)))|].
          eapply col_ok_ext; [apply G2|exact (proj2 (w_range _ (g_wf _ _ _ G1) _ _ Hi1))|exact K1].
    Qed.

    Lemma encodeFeatures_ok : forall fs s s' cols, NoDup fs -> incl fs (features o) -> wf s -> sid s o = Some i ->
      (forall f, In f fs -> lrow s f i = []) ->
      encodeFeatures M G O rec s o i fs = Some (s', cols) ->
      good i s s' /\ (forall c, crow s' c i = crow s c i) /\ (forall f, ~ In f fs -> lrow s' f i = lrow s f i) /\
      (forall f, In f fs -> is_table (fkind M f) = true -> rows_ok s' o i f) /\
      cols_ok s' o i fs cols.
    Proof using rec_ok Ho.
      induction fs as [|f fs IH]; intros s s' cols Hd Hf W Hi Hz E; cbn [encodeFeatures] in E.
      - injection E as <- <-. split; [now apply good_refl|]. split; [auto|]. split; [auto|]. split; [intros f []|]. split; [reflexivity|constructor].
      - inversion Hd as [|? ? Hnf Hd']; subst.
        assert (In f (features o)) as Hff by (apply Hf; now left).
        pose proof (w_range _ W _ _ Hi) as Ri.
        match type of E with match ?h with _ => _ end = _ => destruct h as [[s1 cs]|] eqn:E1; [|discriminate] end.
        assert (good i s s1 /\ (forall c, crow s1 c i = crow s c i) /\ (forall f', f' <> f -> lrow s1 f' i = lrow s f' i) /\
                (is_table (fkind M f) = true -> rows_ok s1 o i f) /\ cols_ok s1 o i [f] cs) as [G1 [C1 [L1 [R1 K1]]]].
        { destruct (is_column (fkind M f)) eqn:Kc; [|destruct (is_table (fkind M f)) eqn:Kt].
          - assert (is_table (fkind M f) = false) as Kt by (destruct (fkind M f); [discriminate|..]; now apply negb_true_iff in Kc).
            assert (forall c, encodedValue M G O o f = Some [] \/ encodedValue M G O o f = None -> c = CNull -> cols_ok s o i [f] [(f, c)]) as Knull.
            { intros c Hv ->. split; [cbn [map filter fst]; now rewrite Kc|]. constructor; [|constructor]. unfold cell_ok. cbn [fst snd].
              destruct (encodedValue_intended o f) as [Q|[Q Q']]; [|now rewrite Q'].
              destruct Hv as [Hv|Hv]; rewrite Hv in Q; [|discriminate]. injection Q as <-. reflexivity. }
            destruct (encodedValue M G O o f) as [[|x l]|] eqn:V.
            + injection E1 as <- <-. split; [now apply good_refl|]. split; [auto|]. split; [auto|]. split; [congruence|]. now apply Knull; [left|].
            + destruct (encodeItem M G rec s i f x) as [[s2 c]|] eqn:E2; [|discriminate]. injection E1 as <- <-.
              assert (intended o f = x :: l) as Q.
              { destruct (encodedValue_intended o f) as [Q|[Q Q']]; [congruence|]. rewrite V in Q. discriminate. }
              apply encodeItem_ok in E2; auto; [|rewrite Q; now left]. destruct E2 as [G2 K2].
              split; [now apply good_weaken|]. split; [intro c'; apply (e_cls _ _ _ (g_ext _ _ _ G2)); lia|].
              split; [intros f' _; apply (e_lst _ _ _ (g_ext _ _ _ G2)); lia|]. split; [congruence|].
              split; [cbn [map filter fst]; now rewrite Kc|]. constructor; [|constructor]. unfold cell_ok. cbn [fst snd]. now rewrite Q.
            + injection E1 as <- <-. split; [now apply good_refl|]. split; [auto|]. split; [auto|]. split; [congruence|]. now apply Knull; [right|].
          - assert (encodeList M G rec s i f 1 (intended o f) = Some s1 /\ cs = []) as [E2 ->].
            { destruct (encodedValue_intended o f) as [Q|[Q Q']].
              - rewrite Q in E1. destruct (encodeList M G rec s i f 1 (intended o f)); [|discriminate]. injection E1 as <- <-. auto.
              - rewrite Q in E1. injection E1 as <- <-. rewrite Q'. auto. }
            apply encodeList_ok in E2; auto; [|apply incl_refl]. destruct E2 as [G2 [C2 [L2 [cs [N2 F2]]]]].
            split; [exact G2|]. split; [exact C2|]. split; [exact L2|]. split.
            + intros _. exists cs. split; [|exact F2]. rewrite N2, Hz by now left. reflexivity.
            + split; [cbn [map filter]; now rewrite Kc|constructor].
          - injection E1 as <- <-. split; [now apply good_refl|]. split; [auto|]. split; [auto|]. split; [congruence|].
            split; [cbn [map filter]; now rewrite Kc|constructor]. }
        clear E1.
        destruct (encodeFeatures M G O rec s1 o i fs) as [[s2 cs']|] eqn:E2; [|discriminate]. injection E as <- <-.
        pose proof (e_sid _ _ _ (g_ext _ _ _ G1) _ _ Hi) as Hi1.
        assert (i < next s1) as Ri1 by exact (proj2 (w_range _ (g_wf _ _ _ G1) _ _ Hi1)).
        apply IH in E2; [|exact Hd'|intros y Hy; apply Hf; now right|apply G1|exact Hi1|].
        2:{ intros f' Hf'. rewrite L1 by (intros ->; contradiction). apply Hz. now right. }
        destruct E2 as [G2 [C2 [L2 [R2 K2]]]].
        split; [|split; [|split; [|split]]].
        + eapply good_trans; [lia|exact G1|exact G2].
        + intro c. now rewrite C2.
        + intros f' Hn. rewrite L2, L1; [reflexivity| |]; intro Q; apply Hn; [now left|now right].
        + intros f' [<-|Hf'] Kt; [|now apply R2]. destruct (R1 Kt) as [rs [N F]]. exists rs. rewrite L2 by exact Hnf.
          split; [exact N|]. eapply Forall2_impl; [|exact F]. intros x c. apply (col_ok_ext i); [apply G2|exact Ri1].
        + apply (cols_ok_ext i _ s2) in K1; [|apply G2|exact Ri1]. destruct K1 as [A1 B1], K2 as [A2 B2]. split.
          * rewrite map_app, A1, A2. cbn [filter]. now destruct (is_column (fkind M f)).
          * apply Forall_app. now split.
    Qed.

    Hypothesis P : proper M.

    Lemma encodeClasses_ok : forall cs s s', NoDup cs -> incl cs (hierarchy M (oclass G o)) -> wf s -> sid s o = Some i ->
      (forall c, In c cs -> crow s c i = [] /\ forall f, In f (own M c) -> lrow s f i = []) ->
      encodeClasses M G O rec s o i cs = Some s' ->
      good i s s' /\
      (forall c, ~ In c cs -> crow s' c i = crow s c i /\ forall f, In f (own M c) -> lrow s' f i = lrow s f i) /\
      (forall c, In c cs -> (exists cols, crow s' c i = [mkR c i cols] /\ cols_ok s' o i (own M c) cols) /\
                            forall f, In f (own M c) -> is_table (fkind M f) = true -> rows_ok s' o i f).
    Proof using rec_ok Ho P.
      induction cs as [|c cs IH]; intros s s' Hd Hc W Hi Hz E; cbn [encodeClasses] in E.
      - injection E as <-. split; [now apply good_refl|]. split; [auto|intros c []].
      - inversion Hd as [|? ? Hnc Hd']; subst.
        assert (In c (hierarchy M (oclass G o))) as Hcc by (apply Hc; now left).
        pose proof (w_range _ W _ _ Hi) as Ri.
        destruct (encodeFeatures M G O rec s o i (own M c)) as [[s1 cols]|] eqn:E1; [|discriminate].
        destruct (Hz c (or_introl eq_refl)) as [Hz1 Hz2].
        apply encodeFeatures_ok in E1; [|apply (p_own _ P)|intros f Hf; apply in_flat_map; now exists c|exact W|exact Hi|exact Hz2].
        destruct E1 as [G1 [C1 [L1 [R1 K1]]]].
        pose proof (e_sid _ _ _ (g_ext _ _ _ G1) _ _ Hi) as Hi1.
        destruct (add_class_good s1 o i c cols (g_wf _ _ _ G1) Hi1 Hcc) as [G2 [L2 C2]].
        set (s2 := add_class s1 (mkR c i cols)) in *.
        assert (sid s2 o = Some i) as Hi2 by exact (e_sid _ _ _ (g_ext _ _ _ G2) _ _ Hi1).
        assert (i < next s1) as Ri1 by exact (proj2 (w_range _ (g_wf _ _ _ G1) _ _ Hi1)).
        assert (i < next s2) as Ri2 by exact (proj2 (w_range _ (g_wf _ _ _ G2) _ _ Hi2)).
        assert (forall c' f, c' <> c -> In f (own M c') -> lrow s2 f i = lrow s f i) as L12.
        { intros c' f Hn Hf. rewrite L2. apply L1. intro Q. apply Hn. exact (p_owner _ P _ _ _ Hf Q). }
        apply IH in E; [|exact Hd'|intros y Hy; apply Hc; now right|apply G2|exact Hi2|].
        2:{ intros c' Hc'. assert (c' <> c) as Hn by (intros ->; contradiction). destruct (Hz c' (or_intror Hc')) as [Z1 Z2]. split.
            - rewrite C2, C1, Z1. destruct (Nat.eqb_spec c c'); [congruence|reflexivity].
            - intros f Hf. rewrite (L12 c') by assumption. now apply Z2. }
        destruct E as [G3 [U3 D3]].
        split; [|split].
        + eapply good_trans; [lia| |exact G3]. eapply good_trans; [lia|exact G1|exact G2].
        + intros c' Hn. destruct (U3 c') as [U1 U2]; [intro Q; apply Hn; now right|].
          assert (c' <> c) as Hne by (intros ->; apply Hn; now left). split.
          * rewrite U1, C2, C1. destruct (Nat.eqb_spec c c'); [congruence|apply app_nil_r].
          * intros f Hf. rewrite U2 by exact Hf. now apply (L12 c').
        + intros c' [<-|Hc']; [|now apply D3]. destruct (U3 c Hnc) as [U1 U2]. split.
          * exists cols. rewrite U1, C2, C1, Hz1, Nat.eqb_refl. split; [reflexivity|].
            apply (cols_ok_ext i s2); [apply G3|exact Ri2|]. apply (cols_ok_ext i s1); [apply G2|exact Ri1|exact K1].
          * intros f Hf Kt. destruct (R1 f Hf Kt) as [rs [N F]]. exists rs. rewrite U2 by exact Hf. rewrite L2. split; [exact N|].
            eapply Forall2_impl; [|exact F]. intros x y Hxy. apply (col_ok_ext i s2); [apply G3|exact Ri2|].
            apply (col_ok_ext i s1); [apply G2|exact Ri1|exact Hxy].
    Qed.
  End Loops.

  Hypothesis P : proper M.

  Definition entered (s : state) (o : nat) (a b : Z) : state :=
    add_object (mkS (next s + 1) (fun x => if Nat.eqb x o then Some (next s) else sid s x) (tables s))
      (mkO (next s) (oclass G o) (columns_of G O o a b)).
  Lemma entered_ok s o a b : wf s -> sid s o = None -> wf (entered s o a b) /\ ext 0 s (entered s o a b).
  Proof using.
    intros W K. set (s2 := entered s o a b).
    pose proof (w_next _ W) as Hn.
    assert (forall x, sid s2 x = if Nat.eqb x o then Some (next s) else sid s x) as S2 by reflexivity.
    assert (forall x j, sid s x = Some j -> Nat.eqb x o = false) as Sn.
    { intros x j H. destruct (Nat.eqb_spec x o) as [->|]; [congruence|reflexivity]. }
    assert (forall x j, sid s x = Some j -> sid s2 x = Some j) as S2'. { intros x j H. now rewrite S2, (Sn _ _ H). }
    assert (wf s2) as W2.
    { constructor.
      - cbn. lia.
      - intros x j. rewrite S2. change (next s2) with (next s + 1). destruct (Nat.eqb_spec x o); [intro H; injection H as <-; lia|].
        intro H. apply (w_range _ W) in H. lia.
      - intros x y j. rewrite !S2. destruct (Nat.eqb_spec x o) as [->|], (Nat.eqb_spec y o) as [->|]; [auto|..].
        + intros H H'. injection H as <-. apply (w_range _ W) in H'. lia.
        + intros H' H. injection H as <-. apply (w_range _ W) in H'. lia.
        + apply (w_inj _ W).
      - intros r Hr. cbn in Hr. apply in_app_iff in Hr. destruct Hr as [Hr|[<-|[]]].
        + destruct (w_obj _ W _ Hr) as [x [H1 H2]]. exists x. split; [now apply S2'|exact H2].
        + exists o. rewrite S2, Nat.eqb_refl. split; [reflexivity|]. split; [reflexivity|]. now exists a, b.
      - intros x j. rewrite S2. cbn [s2 entered add_object tables objects]. destruct (Nat.eqb_spec x o).
        + intro H. injection H as <-. eexists. split; [apply in_app_iff; right; now left|reflexivity].
        + intro H. destruct (w_has _ W _ _ H) as [r [H1 H2]]. exists r. split; [apply in_app_iff; now left|exact H2].
      - cbn [s2 entered add_object tables objects]. rewrite map_app. cbn [map r_id]. apply NoDup_snoc; [apply (w_nodup _ W)|].
        intro H. apply in_map_iff in H. destruct H as [r [H1 H2]]. destruct (w_obj _ W _ H2) as [x [H3 _]]. apply (w_range _ W) in H3. lia.
      - intros r Hr. destruct (w_cls _ W _ Hr) as [x [H1 H2]]. exists x. split; [now apply S2'|exact H2].
      - intros r Hr. destruct (w_lst _ W _ Hr) as [x [H1 H2]]. exists x. split; [now apply S2'|exact H2]. }
    assert (ext 0 s s2) as X2.
    { constructor; [cbn; lia|exact S2'| |reflexivity|reflexivity|reflexivity].
      intros x j H. rewrite S2. destruct (Nat.eqb_spec x o); [intro Q; injection Q as <-; lia|congruence]. }
    now split.
  Qed.

  Lemma encodeObject_ok : forall n s o a b s' k, wf s -> reach M G O root o -> encodeObject n s o a b = Some (s', k) ->
    good 0 s s' /\ sid s' o = Some k.
  Proof using P.
    induction n as [|n IH]; intros s o a b s' k W R E; cbn [SqlDocModel.encodeObject] in E; destruct (sid s o) as [k'|] eqn:K.
    1, 3: injection E as <- <-; split; [now apply good_refl|exact K].
    1: discriminate.
    match type of E with context [encodeClasses _ _ _ _ ?x _ _ _] => change x with (entered s o a b) in * end.
    destruct (encodeClasses M G O (encodeObject n) (entered s o a b) o (next s) (hierarchy M (oclass G o))) as [s3|] eqn:E1; [|discriminate].
    injection E as <- <-.
    pose proof (w_next _ W) as Hn. destruct (entered_ok s o a b W K) as [W2 X2]. set (s2 := entered s o a b) in *.
    assert (forall x, sid s2 x = if Nat.eqb x o then Some (next s) else sid s x) as S2 by reflexivity.
    pose proof (e_sid _ _ _ X2) as S2'.
    assert (sid s2 o = Some (next s)) as Hi by now rewrite S2, Nat.eqb_refl.
    apply (encodeClasses_ok (encodeObject n)) in E1; [| |exact R|exact P|apply (p_hierarchy _ P)|apply incl_refl|exact W2|exact Hi|].
    2:{ intros. eapply IH; eauto. }
    2:{ intros c _. split.
        - apply filter_nil_all. intros r Hr. destruct (w_cls _ W _ Hr) as [x [H _]]. apply (w_range _ W) in H.
          destruct (Z.eqb_spec (c_id r) (next s)); [lia|apply andb_false_r].
        - intros f _. apply filter_nil_all. intros r Hr. destruct (w_lst _ W _ Hr) as [x [H _]]. apply (w_range _ W) in H.
          destruct (Z.eqb_spec (t_id r) (next s)); [lia|apply andb_false_r]. }
    destruct E1 as [G3 [_ D3]]. split; [|exact (e_sid _ _ _ (g_ext _ _ _ G3) _ _ Hi)].
    constructor.
    - apply G3.
    - constructor.
      + pose proof (e_next _ _ _ (g_ext _ _ _ G3)) as Q. change (next s2) with (next s + 1) in Q. lia.
      + intros x j H. apply (e_sid _ _ _ (g_ext _ _ _ G3)). now apply S2'.
      + intros x j H H'. destruct (sid s2 x) as [j'|] eqn:Q.
        * pose proof (e_sid _ _ _ (g_ext _ _ _ G3) _ _ Q) as Q'. rewrite H' in Q'. injection Q' as <-. exact (e_new _ _ _ X2 _ _ H Q).
        * pose proof (e_new _ _ _ (g_ext _ _ _ G3) _ _ Q H') as Q'. change (next s2) with (next s + 1) in Q'. lia.
      + intros c j Hj _. rewrite (e_cls _ _ _ (g_ext _ _ _ G3)); [reflexivity|change (next s2) with (next s + 1); lia|lia].
      + intros c j Hj _. rewrite (e_lst _ _ _ (g_ext _ _ _ G3)); [reflexivity|change (next s2) with (next s + 1); lia|lia].
      + exact (e_contents _ _ _ (g_ext _ _ _ G3)).
    - intros x j H H'. destruct (Z.eq_dec j (next s)) as [->|Hj].
      + assert (x = o) as -> by exact (w_inj _ (g_wf _ _ _ G3) _ _ _ H (e_sid _ _ _ (g_ext _ _ _ G3) _ _ Hi)). split.
        * intros c Hc. now apply D3.
        * intros f Hf Kt. apply in_flat_map in Hf. destruct Hf as [c [Hc Hf]]. now apply (D3 c Hc).
      + apply (g_done _ _ _ G3); [exact H|]. change (next s2) with (next s + 1). lia.
    - intros x H. destruct (g_reach _ _ _ G3 _ H) as [Q|Q]; [|now right]. rewrite S2 in Q. destruct (Nat.eqb_spec x o) as [->|]; [now right|now left].
  Qed.

  (** ** the recursion ends *)
  Definition missing (s : state) (l : list nat) : nat := length (filter (fun x => match sid s x with None => true | _ => false end) l).
  Lemma missing_ext e s s' l : ext e s s' -> (missing s' l <= missing s l)%nat.
  Proof using.
    intro A. unfold missing. induction l as [|x l IH]; [auto|]. cbn [filter]. destruct (sid s x) as [k|] eqn:E.
    - rewrite (e_sid _ _ _ A _ _ E). exact IH.
    - destruct (sid s' x); cbn [length]; lia.
  Qed.

  Variable l : list nat.

  Section Total.
    Variable n : nat.
    Variable rec : state -> nat -> Z -> Z -> option (state * Z).
    Hypothesis rec_ok : forall s x a b s' k, wf s -> reach M G O root x -> rec s x a b = Some (s', k) ->
      good 0 s s' /\ sid s' x = Some k.
    Hypothesis rec_total : forall s x a b, wf s -> reach M G O root x -> (missing s l <= n)%nat -> rec s x a b <> None.
    Variables (o : nat) (i : Z).
    Hypothesis Ho : reach M G O root o.

    Lemma encodeItem_total s f x : wf s -> sid s o = Some i -> In f (features o) -> In x (intended o f) -> (missing s l <= n)%nat ->
      encodeItem M G rec s i f x <> None.
    Proof using rec_total Ho.
      intros W Hi Hf Hx Hm. unfold encodeItem. pose proof (reach_item o Ho f) as R. unfold holds_objects in R.
      destruct (fkind M f), x as [d|t]; try discriminate.
      - pose proof (rec_total s t i (feature_id M f) W (R t Hf (or_introl eq_refl) Hx) Hm). destruct (rec s t i (feature_id M f)) as [[]|]; [discriminate|auto].
      - pose proof (rec_total s t i (feature_id M f) W (R t Hf (or_intror eq_refl) Hx) Hm). destruct (rec s t i (feature_id M f)) as [[]|]; [discriminate|auto].
    Qed.
    Lemma encodeList_total f : In f (features o) -> forall l' s idx, wf s -> sid s o = Some i -> incl l' (intended o f) -> (missing s l <= n)%nat ->
      encodeList M G rec s i f idx l' <> None.
    Proof using rec_ok rec_total Ho.
      intro Hf. induction l' as [|x l' IH]; intros s idx W Hi Hx Hm; cbn [encodeList]; [discriminate|].
      pose proof (encodeItem_total s f x W Hi Hf (Hx _ (or_introl eq_refl)) Hm) as T.
      destruct (encodeItem M G rec s i f x) as [[s1 c]|] eqn:E1; [|contradiction].
      apply (encodeItem_ok rec rec_ok o i Ho) in E1; auto; [|apply Hx; now left]. destruct E1 as [G1 _].
      pose proof (e_sid _ _ _ (g_ext _ _ _ G1) _ _ Hi) as Hi1.
      destruct (add_list_good s1 o i f idx c (g_wf _ _ _ G1) Hi1 Hf) as [G2 _].
      apply IH; [apply G2|exact Hi1|intros y Hy; apply Hx; now right|].
      pose proof (missing_ext _ _ _ l (g_ext _ _ _ G1)). pose proof (missing_ext _ _ _ l (g_ext _ _ _ G2)). lia.
    Qed.
    Lemma encodeFeatures_total : forall fs s, incl fs (features o) -> wf s -> sid s o = Some i -> (missing s l <= n)%nat ->
      encodeFeatures M G O rec s o i fs <> None /\
      forall s' cols, encodeFeatures M G O rec s o i fs = Some (s', cols) -> wf s' /\ sid s' o = Some i /\ (missing s' l <= n)%nat.
    Proof using rec_ok rec_total Ho.
      induction fs as [|f fs IH]; intros s Hf W Hi Hm; cbn [encodeFeatures].
      - split; [discriminate|]. intros s' cols E. injection E as <- <-. auto.
      - assert (In f (features o)) as Hff by (apply Hf; now left).
        match goal with |- match ?h with _ => _ end <> _ /\ _ => assert (h <> None /\ forall s' cols, h = Some (s', cols) -> wf s' /\ sid s' o = Some i /\ (missing s' l <= n)%nat) as [T1 T2]; [|destruct h as [[s1 cs]|] eqn:E1; [|contradiction]] end.
        { destruct (is_column (fkind M f)); [|destruct (is_table (fkind M f))].
          - destruct (encodedValue M G O o f) as [[|x l']|] eqn:V.
            + split; [discriminate|]. intros s' cols E. injection E as <- <-. auto.
            + assert (In x (intended o f)) as Hx.
              { destruct (encodedValue_intended o f) as [Q|[Q Q']]; rewrite V in Q; [|discriminate]. injection Q as <-. now left. }
              pose proof (encodeItem_total s f x W Hi Hff Hx Hm) as T.
              destruct (encodeItem M G rec s i f x) as [[s1 c]|] eqn:E1; [|contradiction]. split; [discriminate|].
              intros s' cols E. injection E as <- <-. apply (encodeItem_ok rec rec_ok o i Ho) in E1; auto. destruct E1 as [G1 _].
              split; [apply G1|]. split; [exact (e_sid _ _ _ (g_ext _ _ _ G1) _ _ Hi)|]. pose proof (missing_ext _ _ _ l (g_ext _ _ _ G1)). lia.
            + split; [discriminate|]. intros s' cols E. injection E as <- <-. auto.
          - destruct (encodedValue_intended o f) as [Q|[Q Q']]; rewrite Q.
            + pose proof (encodeList_total f Hff (intended o f) s 1 W Hi (incl_refl _) Hm) as T.
              destruct (encodeList M G rec s i f 1 (intended o f)) as [s1|] eqn:E1; [|contradiction]. split; [discriminate|].
              intros s' cols E. injection E as <- <-. apply (encodeList_ok rec rec_ok o i Ho) in E1; auto; [|apply incl_refl]. destruct E1 as [G1 _].
              split; [apply G1|]. split; [exact (e_sid _ _ _ (g_ext _ _ _ G1) _ _ Hi)|]. pose proof (missing_ext _ _ _ l (g_ext _ _ _ G1)). lia.
            + split; [discriminate|]. intros s' cols E. injection E as <- <-. auto.
          - split; [discriminate|]. intros s' cols E. injection E as <- <-. auto. }
        destruct (T2 _ _ eq_refl) as [W1 [Hi1 Hm1]].
        destruct (IH s1 (fun y Hy => Hf y (or_intror Hy)) W1 Hi1 Hm1) as [T3 T4].
        destruct (encodeFeatures M G O rec s1 o i fs) as [[s2 cs']|]; [|contradiction]. split; [discriminate|].
        intros s' cols E. injection E as <- <-. exact (T4 _ _ eq_refl).
    Qed.
    Lemma encodeClasses_total : forall cs s, incl cs (hierarchy M (oclass G o)) -> wf s -> sid s o = Some i -> (missing s l <= n)%nat ->
      encodeClasses M G O rec s o i cs <> None.
    Proof using rec_ok rec_total Ho.
      induction cs as [|c cs IH]; intros s Hc W Hi Hm; cbn [encodeClasses]; [discriminate|].
      destruct (encodeFeatures_total (own M c) s) as [T1 T2]; auto.
      { intros f Hf. apply in_flat_map. exists c. split; [apply Hc; now left|exact Hf]. }
      destruct (encodeFeatures M G O rec s o i (own M c)) as [[s1 cols]|]; [|contradiction].
      destruct (T2 _ _ eq_refl) as [W1 [Hi1 Hm1]].
      destruct (add_class_good s1 o i c cols W1 Hi1) as [G2 _]; [apply Hc; now left|].
      apply IH; [intros y Hy; apply Hc; now right|apply G2|exact Hi1|]. pose proof (missing_ext _ _ _ l (g_ext _ _ _ G2)). lia.
    Qed.
  End Total.
  Hypothesis Hl : forall o, reach M G O root o -> In o l.

  Lemma encodeObject_total : forall n s o a b, wf s -> reach M G O root o -> (missing s l <= n)%nat -> encodeObject n s o a b <> None.
  Proof using P Hl.
    assert (forall s o, reach M G O root o -> sid s o = None -> (0 < missing s l)%nat) as Hpos.
    { intros s o R K. unfold missing. destruct (filter _ l) as [|y l'] eqn:F; [|cbn; lia].
      assert (In o []) as []. rewrite <- F. apply filter_In. rewrite K. auto. }
    induction n as [|n IH]; intros s o a b W R Hm; cbn [SqlDocModel.encodeObject]; destruct (sid s o) as [k|] eqn:K; try discriminate.
    - specialize (Hpos s o R K). lia.
    - match goal with |- context [encodeClasses _ _ _ _ ?x _ _ _] => change x with (entered s o a b) end.
      destruct (entered_ok s o a b W K) as [W2 X2].
      assert (sid (entered s o a b) o = Some (next s)) as Hi by (cbn; now rewrite Nat.eqb_refl).
      pose proof (encodeClasses_total n (encodeObject n)) as T.
      specialize (T ltac:(intros; eapply encodeObject_ok; eauto) ltac:(intros; apply IH; auto) o (next s) R (hierarchy M (oclass G o)) (entered s o a b) (incl_refl _) W2 Hi).
      destruct (encodeClasses M G O (encodeObject n) (entered s o a b) o (next s) (hierarchy M (oclass G o))); [discriminate|]. exfalso. apply T; [|reflexivity].
      enough (missing (entered s o a b) l < missing s l)%nat by lia.
      clear - R K Hl X2. pose proof (Hl _ R) as Ho. unfold missing. revert Ho. clear R Hl. induction l as [|x l' IH]; [intros []|].
      assert (missing (entered s o a b) l' <= missing s l')%nat as Q by exact (missing_ext _ _ _ _ X2). unfold missing in Q.
      intro Ho. cbn [filter]. change (sid (entered s o a b) x) with (if Nat.eqb x o then Some (next s) else sid s x).
      destruct (Nat.eqb_spec x o) as [->|Hx].
      + rewrite K. cbn [length]. lia.
      + destruct Ho as [->|Ho]; [congruence|]. specialize (IH Ho). destruct (sid s x); cbn [length]; lia.
  Qed.

  Definition start : state := mkS 1 (fun _ => None) (mkDB [] [] [] []).
  Lemma start_wf : wf start.
  Proof using. clear P Hl l root. constructor; cbn; try lia; try discriminate; try contradiction. constructor. Qed.
End Save.
