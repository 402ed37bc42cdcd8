(** Proofs about SqlSchemaModel: the computed schemas. *)
From Coq Require Import String.
From Verif Require Import Base Chars SqlSchemaModel SqlSchemaSpec.
Local Open Scope string_scope.
Local Open Scope list_scope.
Local Open Scope Z_scope.

Section P.
  Context (ifne ic : bool) (oidn : str) (class_name : nat -> str) (class_features : nat -> list feature).
  Local Notation schema_for := (schema_for ifne class_name).
  Local Notation expected := (expected ifne class_name class_features).
  Local Notation compute := (compute ifne ic oidn class_name class_features).
  Local Notation calls := (calls ifne ic oidn class_name class_features).
  Local Notation layout := (layout ifne class_name).
  Context (all : list nat) (Hall : closed_metamodel class_features all).

  Definition keys (s : schema) : list nat := map fst s.
  Definition keyed (c : nat) (cs : class_schema) : Prop :=
    tname (ctable cs) = lower (class_name c) /\ tkey (ctable cs) = Some 0%nat /\
    nth_error (tcolumns (ctable cs)) 0 = Some (mkC (class_key class_name c) (lit "INTEGER") true false None).
  Record good (s : schema) : Prop := {
    gd_nodup : NoDup (keys s); gd_all : incl (keys s) all; gd_keyed : forall c cs, In (c, cs) s -> keyed c cs }.

  Lemma keyed_schema_for c fs : keyed c (schema_for c fs).
  Proof. repeat split. Qed.

  Lemma find_class_some c s cs : find_class c s = Some cs -> In (c, cs) s.
  Proof.
    unfold find_class. destruct (find _ s) as [[x y]|] eqn:E; [|discriminate]. intros [= ->].
    apply find_some in E. destruct E as [H1 H2]. apply Nat.eqb_eq in H2. cbn in H2. now subst.
  Qed.
  Lemma find_class_none c s : find_class c s = None -> ~ In c (keys s).
  Proof.
    unfold find_class, keys. destruct (find _ s) as [[x y]|] eqn:E; [discriminate|]. intros _ H.
    apply in_map_iff in H. destruct H as ([x y] & Hx & Hin). cbn in Hx. subst x.
    apply (find_none _ _ E) in Hin. cbn in Hin. now rewrite Nat.eqb_refl in Hin.
  Qed.
  Lemma find_class_in c s : In c (keys s) -> exists cs, find_class c s = Some cs.
  Proof. intro H. destruct (find_class c s) eqn:E; [eauto|]. now apply find_class_none in E. Qed.

  Lemma reference_column_ok s r name : good s -> In r (keys s) ->
    reference_column ifne ic oidn s (RClass r) name =
    Some (mkC (match name with Some n => n | None => class_key class_name r end) (lit "INTEGER") false false (Some (RClass r))).
  Proof.
    intros G Hr. destruct (find_class_in _ _ Hr) as [cs Hcs]. pose proof (find_class_some _ _ _ Hcs) as Hin.
    destruct (gd_keyed _ G _ _ Hin) as (H1 & H2 & H3).
    unfold reference_column, table_of. rewrite Hcs. unfold key_of. rewrite H2, H3. reflexivity.
  Qed.

  Lemma update_class_mid c g a x b : ~ In c (keys a) -> ~ In c (keys b) ->
    update_class c g (a ++ (c, x) :: b) = a ++ (c, g x) :: b.
  Proof.
    intros Ha Hb. unfold update_class. rewrite map_app. cbn [map fst snd]. rewrite Nat.eqb_refl.
    assert (Hid : forall l : schema, ~ In c (keys l) -> map (fun p => if Nat.eqb (fst p) c then (fst p, g (snd p)) else p) l = l).
    { induction l as [|[y z] l IH]; intro Hl; [reflexivity|]. cbn [map fst snd].
      destruct (Nat.eqb_spec y c) as [->|Hne]; [exfalso; apply Hl; left; reflexivity|].
      f_equal. apply IH. intro H. apply Hl. right. exact H. }
    now rewrite !Hid.
  Qed.

  Definition singles (fs : list feature) : list column := flat_map (fun f => optional (single f)) fs.

  Lemma layout_snoc c fs f : forall j, layout c j (fs ++ [f]) = layout c j fs ++ layout c (j + length (singles fs)) [f].
  Proof.
    induction fs as [|g fs IH]; intro j; cbn [app]; [cbn [singles flat_map length]; now rewrite Nat.add_0_r|].
    cbn [SqlSchemaSpec.layout singles flat_map]. fold (singles fs). destruct (single g) as [col|]; cbn [optional app length].
    - rewrite IH. replace (S j + length (singles fs))%nat with (j + S (length (singles fs)))%nat by lia. reflexivity.
    - rewrite IH. reflexivity.
  Qed.
  Lemma singles_snoc fs f : singles (fs ++ [f]) = singles fs ++ optional (single f).
  Proof. unfold singles. rewrite flat_map_app. cbn. now rewrite app_nil_r. Qed.

  Lemma schema_snoc_column c fs f col : single f = Some col -> primary col = false ->
    with_column (getSQLCodecFeatureKind f) f col (schema_for c fs) = schema_for c (fs ++ [f]).
  Proof.
    intros H Hp. unfold with_column, SqlSchemaSpec.schema_for, add_column. cbn [ctable cfeatures tname tkey tcolumns tindexes tifne].
    fold (singles fs) (singles (fs ++ [f])). rewrite Hp, layout_snoc, singles_snoc, H. cbn [optional SqlSchemaSpec.layout].
    rewrite H. cbn [length app]. reflexivity.
  Qed.
  Lemma schema_snoc_table c fs f e : single f = None -> element f = Some e -> primary e = false ->
    with_table ifne (getSQLCodecFeatureKind f) f
      [mkC (class_key class_name c) (lit "INTEGER") false false (Some (RClass c));
       attribute_column (lit "idx") (lit "REAL"); e] (schema_for c fs) = schema_for c (fs ++ [f]).
  Proof.
    intros H He Hp. unfold with_table, SqlSchemaSpec.schema_for, new_table. cbn [fold_left].
    unfold add_column. cbn [ctable cfeatures tname tkey tcolumns tindexes tifne primary attribute_column app].
    fold (singles fs) (singles (fs ++ [f])). rewrite layout_snoc, singles_snoc, H. cbn [optional SqlSchemaSpec.layout].
    rewrite H. unfold many. rewrite He, app_nil_r. reflexivity.
  Qed.
  Lemma schema_snoc_none c fs f : single f = None -> element f = None ->
    without (getSQLCodecFeatureKind f) f (schema_for c fs) = schema_for c (fs ++ [f]).
  Proof.
    intros H He. unfold without, SqlSchemaSpec.schema_for. cbn [ctable cfeatures].
    fold (singles fs) (singles (fs ++ [f])). rewrite layout_snoc, singles_snoc, H. cbn [optional SqlSchemaSpec.layout].
    rewrite H. unfold many. rewrite He, app_nil_r. reflexivity.
  Qed.

  (** what is added by a call *)
  Definition fresh_ok (new s' : schema) : Prop :=
    forall x cs, In (x, cs) new -> cs = expected x /\
      forall f r, In f (class_features x) -> needs f -> reftype f = Some r -> In r (keys s').
  Definition call_ok (n : nat) : Prop := forall c s, good s -> In c all -> (length all < n + length s)%nat ->
    exists new, compute n c s = Computed (new ++ s) /\ good (new ++ s) /\ In c (keys (new ++ s)) /\ fresh_ok new (new ++ s).

  Lemma keys_app a b : keys (a ++ b) = keys a ++ keys b.
  Proof. apply map_app. Qed.

  Lemma good_mid a c x y b : keyed c y -> good (a ++ (c, x) :: b) -> good (a ++ (c, y) :: b).
  Proof.
    intros Hk [A B C]. assert (keys (a ++ (c, y) :: b) = keys (a ++ (c, x) :: b)) as He by (rewrite !keys_app; reflexivity).
    constructor; rewrite ?He; auto. intros d cs H. apply in_app_or in H. destruct H as [H|[[= <- <-]|H]]; [|exact Hk|];
      apply C; apply in_or_app; [left; exact H|right; right; exact H].
  Qed.
  Lemma good_mid_out a c x b : good (a ++ (c, x) :: b) -> ~ In c (keys a) /\ ~ In c (keys b).
  Proof.
    intro G. pose proof (gd_nodup _ G) as H. rewrite keys_app in H. cbn [keys map fst] in H. apply NoDup_remove_2 in H.
    split; intro; apply H; apply in_or_app; auto.
  Qed.

  Definition step_ok (c : nat) (fs' fs : list feature) (r : computed) (a b : schema) : Prop :=
    exists new, r = Computed (new ++ a ++ (c, schema_for c fs') :: b)
      /\ good (new ++ a ++ (c, schema_for c fs') :: b)
      /\ fresh_ok new (new ++ a ++ (c, schema_for c fs') :: b)
      /\ forall f r, In f fs -> needs f -> reftype f = Some r -> In r (keys (new ++ a ++ (c, schema_for c fs') :: b)).

  Lemma compute_feature_ok n c f a pre b : call_ok n -> In c all -> In f (class_features c) ->
    good (a ++ (c, schema_for c pre) :: b) -> (length all < n + length (a ++ (c, schema_for c pre) :: b))%nat ->
    step_ok c (pre ++ [f]) [f] (compute_feature ifne ic oidn (compute n) c f (a ++ (c, schema_for c pre) :: b)) a b.
  Proof.
    intros IH Hc Hf G Hn. set (s := a ++ (c, schema_for c pre) :: b) in *.
    destruct (good_mid_out _ _ _ _ G) as [Ha Hb].
    assert (Hcs : In c (keys s)) by (unfold s; rewrite keys_app; apply in_or_app; right; left; reflexivity).
    (* features that need no other class *)
    assert (Hsimple : forall g, g (schema_for c pre) = schema_for c (pre ++ [f]) -> ~ needs f ->
              step_ok c (pre ++ [f]) [f] (Computed (update_class c g s)) a b).
    { intros g Hg Hno. exists []. unfold s. rewrite update_class_mid, Hg by assumption. cbn [app].
      split; [reflexivity|]. split; [now apply (good_mid _ _ (schema_for c pre)); [apply keyed_schema_for|]|].
      split; [intros ? ? []|]. intros f' r [<-|[]] Hnf. contradiction. }
    (* features that need one *)
    assert (Hneed : needs f -> exists r new, reftype f = Some r /\ compute n r s = Computed (new ++ s) /\ good (new ++ s)
              /\ In r (keys (new ++ s)) /\ In c (keys (new ++ s)) /\ forall g, g (schema_for c pre) = schema_for c (pre ++ [f]) ->
              step_ok c (pre ++ [f]) [f] (Computed (update_class c g (new ++ s))) a b).
    { intro Hnf. destruct (Hall c f Hc Hf Hnf) as (r & Hr & Hra). destruct (IH r s G Hra Hn) as (new & H1 & H2 & H3 & H4).
      exists r, new. split; [exact Hr|]. split; [exact H1|]. split; [exact H2|]. split; [exact H3|].
      split; [rewrite keys_app; apply in_or_app; auto|]. intros g Hg. exists new.
      assert (G2 : good ((new ++ a) ++ (c, schema_for c pre) :: b)) by (unfold s in H2; now rewrite <- app_assoc).
      destruct (good_mid_out _ _ _ _ G2) as [Hna _].
      unfold s. rewrite app_assoc, update_class_mid, Hg, <- app_assoc by assumption.
      assert (Hkeys : keys (new ++ a ++ (c, schema_for c (pre ++ [f])) :: b) = keys (new ++ s))
        by (unfold s; rewrite !keys_app; reflexivity).
      split; [reflexivity|].
      split; [rewrite app_assoc; now apply (good_mid _ _ (schema_for c pre)); [apply keyed_schema_for|]|].
      split; [|intros f' r' [<-|[]] _ Hr'; rewrite Hkeys; congruence].
      intros x cs Hx. destruct (H4 x cs Hx) as [E1 E2]. split; [exact E1|]. rewrite Hkeys. exact E2. }
    pose proof (reference_column_ok s c None G Hcs) as Hself.
    unfold compute_feature, needs, attribute_type in *.
    destruct (getSQLCodecFeatureKind f) eqn:Ek.
    all: try (apply Hsimple; [|intros [?|?]; discriminate]; rewrite <- Ek; apply schema_snoc_column; [unfold single; rewrite Ek; reflexivity|reflexivity]).
    - (* transient *) apply Hsimple; [|intros [?|?]; discriminate]. rewrite <- Ek. apply schema_snoc_none; [unfold single|unfold element]; now rewrite Ek.
    - (* data list *) rewrite Hself. cbn [orpanic]. apply Hsimple; [|intros [?|?]; discriminate]. rewrite <- Ek.
      apply schema_snoc_table; [unfold single|unfold element|]; now rewrite ?Ek.
    - (* object *) destruct (Hneed (or_introl eq_refl)) as (r & new & Hr & Hcomp & G2 & Hrk & _ & Hstep).
      rewrite Hr, Hcomp. cbn [then_]. rewrite (reference_column_ok _ r _ G2 Hrk). cbn [orpanic].
      apply Hstep. rewrite <- Ek. apply schema_snoc_column; [unfold single; now rewrite Ek, Hr|reflexivity].
    - (* object list *) destruct (Hneed (or_intror eq_refl)) as (r & new & Hr & Hcomp & G2 & Hrk & Hck & Hstep).
      rewrite Hr, Hcomp. cbn [then_]. rewrite (reference_column_ok _ c _ G2 Hck), (reference_column_ok _ r _ G2 Hrk). cbn [orpanic].
      apply Hstep. rewrite <- Ek. apply schema_snoc_table; [unfold single|unfold element|]; now rewrite ?Ek, ?Hr.
    - (* reference list *) rewrite Hself. cbn [orpanic]. apply Hsimple; [|intros [?|?]; discriminate]. rewrite <- Ek.
      apply schema_snoc_table; [unfold single|unfold element|]; now rewrite ?Ek.
  Qed.

  Lemma compute_features_ok n c fs : call_ok n -> In c all -> forall pre a b, class_features c = pre ++ fs ->
    good (a ++ (c, schema_for c pre) :: b) -> (length all < n + length (a ++ (c, schema_for c pre) :: b))%nat ->
    step_ok c (pre ++ fs) fs (compute_features ifne ic oidn (compute n) c fs (a ++ (c, schema_for c pre) :: b)) a b.
  Proof.
    intros IH Hc. induction fs as [|f fs IHf]; intros pre a b Hfs G Hn; cbn [compute_features].
    - exists []. rewrite app_nil_r. cbn [app]. split; [reflexivity|]. split; [exact G|]. split; [intros ? ? []|]. intros ? ? [].
    - destruct (compute_feature_ok n c f a pre b IH Hc) as (new1 & H1 & G1 & F1 & K1); auto.
      { rewrite Hfs. apply in_or_app. right; left; reflexivity. }
      rewrite H1. cbn [then_]. rewrite app_assoc in H1, G1 |- *.
      destruct (IHf (pre ++ [f]) (new1 ++ a) b) as (new2 & H2 & G2 & F2 & K2).
      + now rewrite <- app_assoc.
      + exact G1.
      + rewrite !app_length in *. cbn [length] in *. lia.
      + rewrite <- app_assoc in H2, G2, F2, K2. cbn [app] in H2, G2, F2, K2.
        exists (new2 ++ new1). rewrite <- !app_assoc in *. split; [exact H2|]. split; [exact G2|].
        assert (Hsub : forall r, In r (keys (new1 ++ a ++ (c, schema_for c (pre ++ [f])) :: b)) ->
                  In r (keys (new2 ++ new1 ++ a ++ (c, schema_for c (pre ++ f :: fs)) :: b))).
        { intros r Hr. rewrite !keys_app in *. cbn [keys map fst] in *. apply in_or_app. right. exact Hr. }
        split.
        * intros x cs Hx. apply in_app_or in Hx. destruct Hx as [Hx|Hx]; [now apply F2|].
          destruct (F1 x cs Hx) as [E1 E2]. split; [exact E1|]. intros f' r Hf' Hnf Hr. apply Hsub. now apply (E2 f').
        * intros f' r [<-|Hf'] Hnf Hr; [|now apply (K2 f')]. apply Hsub. apply (K1 f); auto. left; reflexivity.
  Qed.

  Lemma call_total n : call_ok n.
  Proof.
    induction n as [|n IH]; intros c s G Hc Hn.
    - exfalso. pose proof (NoDup_incl_length (gd_nodup _ G) (gd_all _ G)) as H. unfold keys in H. rewrite map_length in H. lia.
    - cbn [SqlSchemaModel.compute]. unfold compute_body. destruct (find_class c s) as [cs|] eqn:Ef.
      + exists []. cbn [app]. split; [reflexivity|]. split; [exact G|]. split; [|intros ? ? []].
        apply find_class_some in Ef. apply in_map_iff. exists (c, cs). auto.
      + apply find_class_none in Ef.
        assert (Hnew : new_table (lower (class_name c)) [mkC (lower (class_name c) ++ lit "ID") (lit "INTEGER") true false None] ifne
                       = ctable (schema_for c [])) by reflexivity.
        rewrite Hnew. change (mkCS (ctable (schema_for c [])) []) with (schema_for c []).
        destruct (compute_features_ok n c (class_features c) IH Hc [] [] s eq_refl) as (new & H1 & G1 & F1 & K1).
        * cbn [app]. destruct G as [A B C]. constructor; cbn [keys map fst].
          -- constructor; assumption.
          -- intros x [<-|Hx]; auto.
          -- intros d cs [[= <- <-]|H]; [apply keyed_schema_for|auto].
        * cbn [app length]. lia.
        * cbn [app] in *. rewrite H1. exists (new ++ [(c, expected c)]). rewrite <- app_assoc. cbn [app].
          split; [reflexivity|]. split; [exact G1|].
          split; [rewrite keys_app; apply in_or_app; right; left; reflexivity|].
          intros x cs Hx. apply in_app_or in Hx. destruct Hx as [Hx|[[= <- <-]|[]]]; [now apply F1|].
          split; [reflexivity|]. exact K1.
  Qed.

  Lemma calls_ok n cs : (length all < n)%nat -> forall s, good s -> fresh_ok s s -> incl cs all ->
    exists new, calls n cs s = Computed (new ++ s) /\ good (new ++ s) /\ fresh_ok (new ++ s) (new ++ s) /\ incl cs (keys (new ++ s)).
  Proof.
    intros Hn. induction cs as [|c cs IH]; intros s G F Hcs; cbn [SqlSchemaModel.calls].
    - exists []. cbn [app]. split; [reflexivity|]. split; [exact G|]. split; [exact F|]. intros ? [].
    - destruct (call_total n c s G) as (new & H1 & G1 & K1 & F1); [apply Hcs; left; reflexivity|lia|].
      rewrite H1. cbn [then_].
      assert (F2 : fresh_ok (new ++ s) (new ++ s)).
      { intros x y Hx. apply in_app_or in Hx. destruct Hx as [Hx|Hx]; [now apply F1|].
        destruct (F x y Hx) as [E1 E2]. split; [exact E1|]. intros f r Hf Hnf Hr. rewrite keys_app. apply in_or_app. right. now apply (E2 f). }
      destruct (IH (new ++ s) G1 F2) as (new2 & H2 & G2 & F3 & K2); [intros x Hx; apply Hcs; right; exact Hx|].
      exists (new2 ++ new). rewrite <- app_assoc. split; [exact H2|]. split; [exact G2|]. split; [exact F3|].
      intros x [<-|Hx]; [|now apply K2]. rewrite keys_app. apply in_or_app. right. exact K1.
  Qed.
End P.
