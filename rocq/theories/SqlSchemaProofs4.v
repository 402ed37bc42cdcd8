(** Proofs about SqlSchemaModel: the tables of a computed schema. *)
From Coq Require Import String.
From Verif Require Import Base Chars SqlSchemaModel SqlSchemaSpec SqlSchemaProofs SqlSchemaProofs2 SqlSchemaProofs3.
Local Open Scope string_scope.
Local Open Scope list_scope.
Local Open Scope Z_scope.

Lemma optional_in {X} (o : option X) x : In x (optional o) -> o = Some x.
Proof. destruct o as [y|]; [intros [<-|[]]; reflexivity|intros []]. Qed.

Section P.
  Context (ifne ic : bool) (oidn : str) (class_name : nat -> str) (class_features : nat -> list feature).
  Context (all : list nat) (Hall : closed_metamodel class_features all).
  Local Notation expected := (expected ifne class_name class_features).
  Local Notation calls := (calls ifne ic oidn class_name class_features).

  Lemma layout_tables c fs : forall j,
    flat_map (fun x => optional (ftable x)) (layout ifne class_name c j fs) = flat_map (fun f => optional (many ifne class_name c f)) fs.
  Proof.
    induction fs as [|f fs IH]; intro j; [reflexivity|]. cbn [layout flat_map].
    destruct (single f) as [col|] eqn:E; cbn [flat_map ftable]; [|now rewrite IH].
    assert (Hm : many ifne class_name c f = None).
    { unfold many. assert (He : element f = None) by (unfold single in E; unfold element; destruct (getSQLCodecFeatureKind f); try discriminate E; reflexivity).
      now rewrite He. }
    rewrite Hm. cbn [optional app]. apply IH.
  Qed.
  Lemma tables_expected s : (forall c k, In (c, k) s -> k = expected c) -> tables s = flat_map (class_tables ifne class_name class_features) (map fst s).
  Proof.
    induction s as [|[c k] s IH]; intro H; [reflexivity|]. unfold tables in *. cbn [flat_map map fst snd].
    rewrite (H c k) by (left; reflexivity). rewrite IH by (intros; apply H; right; assumption).
    unfold class_tables at 2. unfold SqlSchemaSpec.expected at 2. cbn [schema_for cfeatures]. now rewrite layout_tables.
  Qed.

  Record computed_from (cs : list nat) (s : schema) : Prop := {
    cf_nodup : NoDup (map fst s);
    cf_all : incl (map fst s) all;
    cf_calls : incl cs (map fst s);
    cf_expected : forall c k, In (c, k) s -> k = expected c;
    cf_refs : forall t col c, In t (tables s) -> In col (tcolumns t) -> reference col = Some (RClass c) -> In c (map fst s) }.

  Lemma calls_full n cs : (length all < n)%nat -> incl cs all ->
    exists s, calls n cs [] = Computed s /\ computed_from cs s /\ good class_name all s /\ fresh_ok ifne class_name class_features s s.
  Proof.
    intros Hn Hcs. destruct (calls_ok ifne ic oidn class_name class_features all Hall n cs Hn []) as (new & H1 & G & F & K).
    - constructor; [constructor|intros ? []|intros ? ? []].
    - intros ? ? [].
    - exact Hcs.
    - rewrite app_nil_r in *. exists new. split; [exact H1|]. split; [|split; assumption].
      assert (E : forall c k, In (c, k) new -> k = expected c) by (intros c k H; apply (F c k H)).
      constructor; [apply G|apply G|exact K|exact E|].
      intros t col c Ht Hcol Hr. rewrite (tables_expected new E) in Ht. apply in_flat_map in Ht. destruct Ht as (x & Hx & Ht).
      assert (Hcase : forall f, In f (class_features x) -> single f = Some col \/ element f = Some col -> In c (map fst new)).
      { intros f Hf Hs.
        assert (needs f /\ reftype f = Some c) as [N R].
        { unfold needs. destruct Hs as [Hs|Hs]; [unfold single in Hs|unfold element in Hs];
            destruct (getSQLCodecFeatureKind f); try discriminate Hs; injection Hs as <-; cbn [reference] in Hr; try discriminate Hr;
            (split; [auto|]; destruct (reftype f) as [y|]; [|discriminate Hr]; injection Hr as <-; reflexivity). }
        exact (ref_feature ifne class_name class_features new F x f c Hx Hf N R). }
      destruct Ht as [<-|Ht].
      + destruct Hcol as [<-|Hcol]; [discriminate Hr|]. apply in_flat_map in Hcol. destruct Hcol as (f & Hf & Hc).
        apply optional_in in Hc. apply (Hcase f); auto.
      + apply in_flat_map in Ht. destruct Ht as (f & Hf & Ht). apply optional_in in Ht. unfold many in Ht.
        destruct (element f) as [e|] eqn:Ee; [|discriminate]. injection Ht as <-.
        destruct Hcol as [<-|[<-|[<-|[]]]]; [injection Hr as <-; exact Hx|discriminate Hr|apply (Hcase f); auto].
  Qed.

  (** any computed schema is that one *)
  Lemma calls_any n cs s : (length all < n)%nat -> incl cs all -> calls n cs [] = Computed s ->
    computed_from cs s /\ good class_name all s /\ fresh_ok ifne class_name class_features s s.
  Proof. intros Hn Hcs H. destruct (calls_full n cs Hn Hcs) as (s' & H' & R). rewrite H in H'. injection H' as <-. exact R. Qed.

  Lemma distinct_computed n cs s : (length all < n)%nat -> incl cs all -> calls n cs [] = Computed s ->
    distinct_names oidn class_name class_features all ->
    NoDup (map low_name (internal_tables ifne ic oidn ++ tables s)) /\
    forall t, In t (internal_tables ifne ic oidn ++ tables s) -> NoDup (low_columns t).
  Proof.
    intros Hn Hcs H D. destruct (calls_any n cs s Hn Hcs H) as ([N I _ E _] & _).
    rewrite (tables_expected s E).
    assert (D' : distinct_names oidn class_name class_features (map fst s)).
    { destruct D as [D1 D2 D3 D4 D5 D6]. constructor; eauto. }
    split; [exact (table_names_distinct ifne ic oidn class_name class_features _ N D')|].
    intros t. exact (columns_distinct ifne ic oidn class_name class_features _ D' t).
  Qed.

  Lemma queries_computed n cs s : (length all < n)%nat -> incl cs all -> calls n cs [] = Computed s ->
    (forall c, In c all -> plain (class_name c)) -> (forall c f, In c all -> In f (class_features c) -> plain (fname f)) ->
    (oidn = [] \/ plain oidn) ->
    forall t, In t (internal_tables ifne ic oidn ++ tables s) ->
    ok_table (table_of ifne ic oidn s) (ref_name class_name) (ref_key class_name) t.
  Proof.
    intros Hn Hcs H Hc Hf Ho t Ht. destruct (calls_any n cs s Hn Hcs H) as ([N I _ E _] & G & F).
    rewrite (tables_expected s E) in Ht. apply (schema_tables_ok ifne ic oidn class_name class_features s all G F); auto.
    intros c f Hx. apply Hf. now apply I.
  Qed.

  (** names of columns of such a table *)
  Lemma columns_selectable rt rn rk t columns : ok_table rt rn rk t -> incl columns (map colname (tcolumns t)) -> forall c, In c columns -> ok_name c.
  Proof. intros T H c Hc. apply H in Hc. apply in_map_iff in Hc. destruct Hc as (d & <- & Hd). now apply (ot_columns _ _ _ _ T). Qed.
End P.

Lemma key_is_primary : forall name columns ifne,
  match tkey (new_table name columns ifne) with
  | Some i => exists before c after, columns = before ++ c :: after /\ length before = i /\ primary c = true /\
                                     forall c', In c' after -> primary c' = false
  | None => forall c, In c columns -> primary c = false
  end.
Proof.
  intros name columns ifne.
  assert (T : tcolumns (new_table name columns ifne) = columns /\
              match tkey (new_table name columns ifne) with
              | Some i => exists before c after, columns = before ++ c :: after /\ length before = i /\ primary c = true /\
                                                 forall c', In c' after -> primary c' = false
              | None => forall c, In c columns -> primary c = false
              end); [|exact (proj2 T)].
  unfold new_table. induction columns as [|c l [E IH]] using rev_ind; [split; [reflexivity|intros c []]|].
  rewrite fold_left_app. cbn [fold_left]. set (t := fold_left add_column l _) in *. unfold add_column. cbn [tcolumns tkey].
  rewrite E. split; [reflexivity|]. destruct (primary c) eqn:P.
  - exists l, c, []. repeat split; [exact P|intros c' []].
  - destruct (tkey t) as [i|].
    + destruct IH as (b & k & a & -> & L & K & A). exists b, k, (a ++ [c]). rewrite <- app_assoc. repeat split; auto.
      intros c' H. apply in_app_or in H. destruct H as [H|[<-|[]]]; auto.
    + intros c' H. apply in_app_or in H. destruct H as [H|[<-|[]]]; auto.
Qed.
