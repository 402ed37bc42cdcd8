(** Proofs about SqlSchemaModel: names of tables and columns. *)
From Coq Require Import String.
From Verif Require Import Base Chars SqlSchemaModel SqlSchemaSpec.
Local Open Scope string_scope.
Local Open Scope list_scope.
Local Open Scope Z_scope.

Lemma lower1_idem c : lower1 (lower1 c) = lower1 c.
Proof. unfold lower1. destruct ((65 <=? c) && (c <=? 90)) eqn:E; [|now rewrite E]. replace ((65 <=? c + 32) && (c + 32 <=? 90)) with false by lia. reflexivity. Qed.
Lemma lower_idem s : lower (lower s) = lower s.
Proof. unfold lower. rewrite map_map. apply map_ext. exact lower1_idem. Qed.
Lemma lower_app a b : lower (a ++ b) = lower a ++ lower b.
Proof. apply map_app. Qed.
Lemma lower1_fix c d : lower1 c = d -> (d < 65 \/ 90 < d < 97 \/ 122 < d) -> c = d.
Proof. unfold lower1. destruct ((65 <=? c) && (c <=? 90)) eqn:E; lia. Qed.
Lemma lower_in_fix d s : (d < 65 \/ 90 < d < 97 \/ 122 < d) -> In d (lower s) -> In d s.
Proof. intros Hd H. apply in_map_iff in H. destruct H as (c & Hc & Hin). apply lower1_fix in Hc; [now subst|exact Hd]. Qed.

Lemma cut_first d (a x b y : str) : ~ In d a -> ~ In d b -> a ++ d :: x = b ++ d :: y -> a = b /\ x = y.
Proof.
  revert b; induction a as [|c a IH]; intros [|e b] Ha Hb H; cbn in H.
  - injection H as <-. auto.
  - exfalso. injection H as -> _. apply Hb. left; reflexivity.
  - exfalso. injection H as -> _. apply Ha. left; reflexivity.
  - injection H as -> H. destruct (IH b) as [-> ->]; [intro; apply Ha; right; assumption|intro; apply Hb; right; assumption|exact H|auto].
Qed.

Lemma NoDup_flat_map {X Y} (g : X -> list Y) l : NoDup l -> (forall x, In x l -> NoDup (g x)) ->
  (forall x x' y, In x l -> In x' l -> In y (g x) -> In y (g x') -> x = x') -> NoDup (flat_map g l).
Proof.
  induction l as [|x l IH]; intros Hl Hg Hd; cbn; [constructor|]. inversion Hl; subst.
  apply NoDup_app_iff. split; [apply Hg; left; reflexivity|]. split.
  - apply IH; auto; [intros; apply Hg; right; assumption|]. intros a a' y Ha Ha'. apply Hd; right; assumption.
  - intros y Hy Hy'. apply in_flat_map in Hy'. destruct Hy' as (x' & Hx' & Hyx').
    assert (x = x') by (apply (Hd x x' y); auto; [left; reflexivity|right; exact Hx']). now subst.
Qed.
Lemma map_flat_map {X Y W} (h : Y -> W) (g : X -> list Y) l : map h (flat_map g l) = flat_map (fun x => map h (g x)) l.
Proof. induction l as [|x l IH]; cbn; [reflexivity|]. now rewrite map_app, IH. Qed.

Section P.
  Context (ifne ic : bool) (oidn : str) (class_name : nat -> str) (class_features : nat -> list feature).
  Context (classes : list nat) (Hcl : NoDup classes).
  Context (D : distinct_names oidn class_name class_features classes).
  Local Notation all_tables := (all_tables ifne ic oidn class_name class_features).
  Local Notation class_tables := (class_tables ifne class_name class_features).
  Local Notation many := (many ifne class_name).

  Definition low_name (t : table) : str := lower (tname t).

  Lemma many_name c f t : many c f = Some t -> low_name t = lower (class_name c) ++ underscore :: lower (fname f).
  Proof.
    unfold SqlSchemaSpec.many. destruct (element f); [|discriminate]. intros [= <-]. unfold low_name. cbn [tname].
    rewrite !lower_app, lower_idem. reflexivity.
  Qed.

  Lemma class_no_underscore c : In c classes -> ~ In underscore (lower (class_name c)).
  Proof. intros Hc H. apply (proj1 (dn_class _ _ _ _ D c Hc)). apply (lower_in_fix underscore); [unfold underscore; lia|exact H]. Qed.
  Lemma class_no_dot c x : In c classes -> hd 0 (lower (class_name c) ++ underscore :: x) <> dot /\ hd 0 (lower (class_name c)) <> dot.
  Proof.
    intros Hc. pose proof (proj2 (dn_class _ _ _ _ D c Hc)) as H. destruct (class_name c) as [|a s]; cbn in *; [split; discriminate|].
    split; intro E; apply H; apply lower1_fix; auto; unfold dot; lia.
  Qed.

  Lemma class_table_names c t : In c classes -> In t (class_tables c) ->
    (low_name t = lower (class_name c)) \/ (exists f, In f (class_features c) /\ many c f = Some t /\
       low_name t = lower (class_name c) ++ underscore :: lower (fname f)).
  Proof.
    intros Hc [<-|H].
    - left. unfold low_name. cbn [ctable expected schema_for tname]. apply lower_idem.
    - right. apply in_flat_map in H. destruct H as (f & Hf & Ht). destruct (many c f) as [t'|] eqn:E; [|destruct Ht].
      destruct Ht as [<-|[]]. exists f. split; [exact Hf|]. split; [exact E|]. now apply many_name.
  Qed.

  Lemma class_tables_nodup c : In c classes -> NoDup (map low_name (class_tables c)).
  Proof.
    intro Hc. cbn [SqlSchemaSpec.class_tables map]. constructor.
    - intro H. apply in_map_iff in H. destruct H as (t & Ht & Hin). apply in_flat_map in Hin. destruct Hin as (f & Hf & Hin).
      destruct (many c f) as [t'|] eqn:E; [|destruct Hin]. destruct Hin as [<-|[]]. rewrite (many_name _ _ _ E) in Ht.
      unfold low_name in Ht. cbn [ctable expected schema_for tname] in Ht. rewrite lower_idem in Ht.
      apply (class_no_underscore c Hc). rewrite <- Ht. apply in_or_app. right; left; reflexivity.
    - pose proof (dn_features _ _ _ _ D c Hc) as Hnd. clear Hcl. induction (class_features c) as [|f fs IH]; cbn; [constructor|].
      inversion Hnd as [|x l Hx Hnd' Heq]; subst. rewrite map_app. apply NoDup_app_iff. split.
      + destruct (many c f); cbn; repeat constructor; intros [].
      + split; [now apply IH|]. intros n Hn Hn'. destruct (many c f) as [t|] eqn:E; [|destruct Hn].
        destruct Hn as [<-|[]]. apply in_map_iff in Hn'. destruct Hn' as (t' & Ht' & Hin). apply in_flat_map in Hin.
        destruct Hin as (g & Hg & Hin). destruct (many c g) as [t2|] eqn:E2; [|destruct Hin]. destruct Hin as [<-|[]].
        rewrite (many_name _ _ _ E), (many_name _ _ _ E2) in Ht'. apply app_inv_head in Ht'. injection Ht' as Ht'.
        apply Hx. rewrite <- Ht'. apply in_map_iff. eauto.
  Qed.

  Lemma internal_names : map low_name (internal_tables ifne ic oidn) =
    map lit [".properties"; ".packages"; ".classes"; ".objects"; ".contents"; ".enums"].
  Proof.
    unfold internal_tables. cbn [map].
    assert (low_name (objectsTable ifne ic oidn) = lit ".objects") as ->.
    { unfold objectsTable. destruct ic, oidn; try reflexivity; destruct (str_eqb _ _); reflexivity. }
    reflexivity.
  Qed.

  Theorem table_names_distinct : NoDup (map low_name (all_tables classes)).
  Proof.
    unfold SqlSchemaSpec.all_tables. rewrite map_app, internal_names. apply NoDup_app_iff. split; [|split].
    - vm_compute. repeat constructor; cbn; intuition discriminate.
    - rewrite map_flat_map. apply NoDup_flat_map; [exact Hcl|exact class_tables_nodup|].
      intros c c' n Hc Hc' Hn Hn'. apply in_map_iff in Hn, Hn'. destruct Hn as (t & <- & Ht). destruct Hn' as (t' & He & Ht').
      apply (dn_classes _ _ _ _ D); auto. unfold same_name.
      pose proof (class_no_underscore c Hc) as U. pose proof (class_no_underscore c' Hc') as U'.
      destruct (class_table_names c t Hc Ht) as [H|(f & _ & _ & H)]; destruct (class_table_names c' t' Hc' Ht') as [H'|(f' & _ & _ & H')];
        rewrite H, H' in He.
      + congruence.
      + exfalso. apply U. rewrite <- He. apply in_or_app. right; left; reflexivity.
      + exfalso. apply U'. rewrite He. apply in_or_app. right; left; reflexivity.
      + apply cut_first in He; auto. symmetry. apply He.
    - intros n Hn Hn'. assert (hd 0 n = dot) as Hdot.
      { cbn in Hn. repeat (destruct Hn as [<-|Hn]; [reflexivity|]). destruct Hn. }
      rewrite map_flat_map in Hn'. apply in_flat_map in Hn'. destruct Hn' as (c & Hc & Hin). apply in_map_iff in Hin.
      destruct Hin as (t & <- & Ht). destruct (class_table_names c t Hc Ht) as [H|(f & _ & _ & H)]; rewrite H in Hdot.
      + now apply (proj2 (class_no_dot c [] Hc)).
      + now apply (proj1 (class_no_dot c (lower (fname f)) Hc)).
  Qed.

  (** *** columns *)
  Definition low_columns (t : table) : list str := map (fun c => lower (colname c)) (tcolumns t).

  Lemma key_last c : last (lower (class_key class_name c)) 0 = 100.
  Proof. unfold class_key. rewrite lower_app. change (lower (lit "ID")) with ([105] ++ [100]). rewrite app_assoc. apply last_last. Qed.

  Lemma single_name f col : single f = Some col -> colname col = fname f.
  Proof. unfold single. destruct (getSQLCodecFeatureKind f); intros [= <-]; reflexivity. Qed.

  Lemma class_columns c : In c classes -> NoDup (low_columns (ctable (expected ifne class_name class_features c))).
  Proof.
    intro Hc. unfold low_columns. cbn [ctable expected schema_for tcolumns map].
    assert (Hin : forall fs n, In n (map (fun col => lower (colname col)) (flat_map (fun f => optional (single f)) fs)) ->
              exists f, In f fs /\ n = lower (fname f)).
    { intros fs n H. apply in_map_iff in H. destruct H as (col & <- & H). apply in_flat_map in H. destruct H as (f & Hf & H).
      destruct (single f) as [col'|] eqn:E; [|destruct H]. destruct H as [<-|[]]. exists f. split; [exact Hf|].
      now rewrite (single_name _ _ E). }
    constructor.
    - intro H. apply Hin in H. destruct H as (f & Hf & H). apply (dn_key _ _ _ _ D c f Hc Hf). symmetry. exact H.
    - pose proof (dn_features _ _ _ _ D c Hc) as Hnd. induction (class_features c) as [|f fs IH]; cbn; [constructor|].
      inversion Hnd as [|x l Hx Hnd' Heq]; subst. rewrite map_app. apply NoDup_app_iff.
      split; [destruct (single f); cbn; repeat constructor; intros []|]. split; [now apply IH|].
      intros n Hn Hn'. destruct (single f) as [col|] eqn:E; [|destruct Hn]. destruct Hn as [<-|[]].
      apply Hin in Hn'. destruct Hn' as (g & Hg & He). rewrite (single_name _ _ E) in He. apply Hx. rewrite He.
      apply in_map_iff. eauto.
  Qed.

  Lemma many_columns c f t : In c classes -> In f (class_features c) -> many c f = Some t -> NoDup (low_columns t).
  Proof.
    intros Hc Hf. unfold SqlSchemaSpec.many. destruct (element f) as [e|] eqn:E; [|discriminate]. intros [= <-].
    unfold low_columns. cbn [tcolumns map colname].
    assert (Hkey : forall s, last (lower s) 0 <> 100 -> lower (class_key class_name c) <> lower s).
    { intros s Hs He. apply Hs. rewrite <- He. apply key_last. }
    assert (He : (colname e = fname f) \/ colname e = lit "uri").
    { unfold element in E. destruct (getSQLCodecFeatureKind f); first [discriminate E | injection E as <-; auto]. }
    assert (H1 : lower (class_key class_name c) <> lower (lit "idx")) by (apply Hkey; discriminate).
    assert (H2 : lower (class_key class_name c) <> lower (colname e)).
    { destruct He as [-> | ->]; [|apply Hkey; discriminate]. intro H. apply (dn_key _ _ _ _ D c f Hc Hf). symmetry. exact H. }
    assert (H3 : lower (lit "idx") <> lower (colname e)).
    { destruct He as [-> | ->]; [|discriminate]. intro H. apply (dn_idx _ _ _ _ D c f Hc Hf); [congruence|]. symmetry. exact H. }
    repeat constructor; cbn; intuition.
  Qed.

  Lemma object_columns : NoDup (low_columns (objectsTable ifne ic oidn)).
  Proof.
    assert (Hbase : forall l, incl l (map lit ["objectID"; "classID"; "containerID"; "containerFeatureID"]) ->
              NoDup (map lower l) -> oidn <> lit "objectID" -> NoDup (map lower (l ++ [oidn]))).
    { intros l Hl Hnd Hne. rewrite map_app. apply NoDup_app_iff. split; [exact Hnd|]. split; [repeat constructor; intros []|].
      intros n Hn [<-|[]]. apply in_map_iff in Hn. destruct Hn as (s & Hs & Hin).
      destruct (dn_object _ _ _ _ D) as [H|H]; [contradiction|]. apply (H s); [now apply Hl|]. symmetry. exact Hs. }
    assert (Hmap : forall t, low_columns t = map lower (map colname (tcolumns t))) by (intro; unfold low_columns; now rewrite map_map).
    rewrite Hmap. unfold objectsTable. cbv zeta.
    destruct oidn as [|a s] eqn:Eo.
    - destruct ic; cbn; repeat constructor; cbn; intuition discriminate.
    - rewrite <- Eo in *. destruct (str_eqb oidn (lit "objectID")) eqn:E.
      + destruct ic; cbn; repeat constructor; cbn; intuition discriminate.
      + apply str_eqb_neq in E. destruct ic.
        * apply (Hbase [lit "objectID"; lit "classID"; lit "containerID"; lit "containerFeatureID"]); auto.
          -- intros x Hx. cbn in *. intuition.
          -- cbn; repeat constructor; cbn; intuition discriminate.
        * apply (Hbase [lit "objectID"; lit "classID"]); auto.
          -- intros x Hx. cbn in *. intuition.
          -- cbn; repeat constructor; cbn; intuition discriminate.
  Qed.

  Theorem columns_distinct t : In t (all_tables classes) -> NoDup (low_columns t).
  Proof.
    unfold SqlSchemaSpec.all_tables. intro H. apply in_app_or in H. destruct H as [H|H].
    - unfold internal_tables in H. cbn [In] in H. destruct H as [<-|[<-|[<-|[<-|[<-|[<-|[]]]]]]].
      all: try exact object_columns.
      all: vm_compute; repeat constructor; cbn; intuition discriminate.
    - apply in_flat_map in H. destruct H as (c & Hc & [<-|H]); [now apply class_columns|].
      apply in_flat_map in H. destruct H as (f & Hf & Ht). destruct (many c f) as [t'|] eqn:E; [|destruct Ht].
      destruct Ht as [<-|[]]. now apply (many_columns c f).
  Qed.
End P.
