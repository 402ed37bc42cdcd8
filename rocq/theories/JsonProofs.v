From Coq Require Import String.
From Verif Require Import Base Chars SqlSchemaModel JsonModel JsonSpec.
Local Open Scope string_scope.
Local Open Scope list_scope.

Lemma member_in k j l : NoDup (map fst l) -> In (k, j) l -> member k l = Some j.
Proof.
  induction l as [|[k' j'] l IH]; intros N H; [destruct H|]. cbn [map fst] in N. inversion N as [|? ? Hk N']; subst. cbn [member].
  destruct H as [H|H]; [injection H as -> ->; now rewrite str_eqb_refl|].
  destruct (str_eqb k' k) eqn:E; [|now apply IH]. apply str_eqb_eq in E. subst. exfalso. apply Hk. apply in_map_iff. now exists (k, j).
Qed.
Lemma member_none k l : ~ In k (map fst l) -> member k l = None.
Proof.
  induction l as [|[k' j'] l IH]; intro H; [reflexivity|]. cbn [member map fst In] in *.
  destruct (str_eqb k' k) eqn:E; [apply str_eqb_eq in E; subst; exfalso; auto|auto].
Qed.
Lemma NoDup_app {A} (a b : list A) : NoDup a -> NoDup b -> (forall x, In x a -> ~ In x b) -> NoDup (a ++ b).
Proof.
  intros Ha Hb H. induction Ha as [|x a Hx Ha IH]; [exact Hb|]. cbn [app]. constructor.
  - rewrite in_app_iff. intros [Q|Q]; [contradiction|]. apply (H x); [now left|exact Q].
  - apply IH. intros y Hy. apply H. now right.
Qed.

Section Proofs.
  Context {D : Type} (M : meta D) (G : source D) (id_name : str).
  Notation describes := (describes M G id_name).
  Notation shown := (shown M G id_name).
  Notation encodeObject := (encodeObject M G id_name).

  Lemma refers_reference x : refers M G x (encodeObjectReference M G x).
  Proof using.
    eexists. split; [reflexivity|]. split; [|repeat split; reflexivity]. repeat constructor; cbn; [|intros []]. intros [H|[]]. discriminate H.
  Qed.

  Section Rec.
    Variable rec : nat -> outcome json.
    Lemma encodeObjects_ok xs : (forall x, In x xs -> exists j, rec x = Written j /\ describes x j) ->
      exists js, encodeObjects (D:=D) rec (map IObj xs) = Written js /\ Forall2 describes xs js.
    Proof using.
      induction xs as [|x xs IH]; intro H; [exists []; split; [reflexivity|constructor]|].
      destruct (H x (or_introl eq_refl)) as [j [E d]]. destruct IH as [js [E' F]]; [intros y Hy; apply H; now right|].
      exists (j :: js). cbn [map encodeObjects]. rewrite E. cbn [next]. rewrite E'. split; [reflexivity|now constructor].
    Qed.
    Lemma encodeReferences_ok xs : exists js, encodeReferences M G (map IObj xs) = Written js /\ Forall2 (refers M G) xs js.
    Proof using.
      induction xs as [|x xs [js [E F]]]; [exists []; split; [reflexivity|constructor]|]. eexists. cbn [map encodeReferences].
      rewrite E. split; [reflexivity|]. constructor; [apply refers_reference|exact F].
    Qed.
    Lemma data_list f ds : flat_map (fun x => match getData M f x with Some t => [JStr t] | None => [] end) (map IData ds) = map (fun d => JStr (convert M f d)) ds.
    Proof using. induction ds as [|d ds IH]; [reflexivity|]. cbn. now rewrite IH. Qed.

    Variable o : nat.
    Hypothesis Hrec : forall x, inside M G o x -> exists j, rec x = Written j /\ describes x j.

    Lemma feature_ok f : In f (features M (oclass G o)) -> fits M G o f ->
      exists a, encodeFeatureValue M G rec o f = Written a /\
        (a = [] /\ shown o f None \/ exists j, a = [(fname M f, j)] /\ shown o f (Some j)).
    Proof using Hrec.
      intros Hf Hfit. unfold encodeFeatureValue, fits in *. destruct (value G o f) as [l|] eqn:V.
      2:{ exists []. split; [reflexivity|]. left. split; [reflexivity|now constructor]. }
      destruct (fkind M f) eqn:K.
      - exists []. split; [reflexivity|]. left. split; [reflexivity|now constructor].
      - destruct Hfit as [->|[d ->]].
        + exists []. split; [reflexivity|]. left. split; [reflexivity|now constructor].
        + eexists. split; [reflexivity|]. right. eexists. split; [reflexivity|]. now constructor.
      - destruct Hfit as [ds ->]. rewrite data_list. eexists. split; [reflexivity|]. right. eexists. split; [reflexivity|]. now constructor.
      - destruct Hfit as [x ->]. destruct (Hrec x) as [j [E d]].
        { exists f, [IObj x]. split; [exact Hf|]. split; [now left|]. split; [exact V|now left]. }
        cbn [single]. rewrite E. cbn [next]. eexists. split; [reflexivity|]. right. exists j. split; [reflexivity|]. now apply shown_object with x.
      - destruct Hfit as [xs ->]. destruct (encodeObjects_ok xs) as [js [E F]].
        { intros x Hx. apply Hrec. exists f, (map IObj xs). split; [exact Hf|]. split; [now right|]. split; [exact V|]. now apply in_map. }
        rewrite E. cbn [next]. eexists. split; [reflexivity|]. right. eexists. split; [reflexivity|]. now apply shown_object_list with xs.
      - destruct Hfit as [x ->]. cbn [single next]. eexists. split; [reflexivity|]. right. eexists. split; [reflexivity|].
        apply shown_reference with x; auto. apply refers_reference.
      - destruct Hfit as [xs ->]. destruct (encodeReferences_ok xs) as [js [E F]].
        rewrite E. cbn [next]. eexists. split; [reflexivity|]. right. eexists. split; [reflexivity|]. now apply shown_reference_list with xs.
    Qed.

    Lemma features_ok fs : incl fs (features M (oclass G o)) -> NoDup (map (fname M) fs) ->
      (forall f, In f fs -> fits M G o f) ->
      exists a, encodeFeatures M G rec o fs = Written a /\ NoDup (map fst a) /\ incl (map fst a) (map (fname M) fs) /\
        forall f, In f fs -> shown o f (member (fname M f) a).
    Proof using Hrec.
      induction fs as [|f fs IH]; intros Hi N Hfit.
      - exists []. split; [reflexivity|]. split; [constructor|]. split; [intros k []|intros f []].
      - cbn [map] in N. inversion N as [|? ? Hn N']; subst.
        destruct IH as [b [E [Nb [Ib Sb]]]]; [intros y Hy; apply Hi; now right|exact N'|intros y Hy; apply Hfit; now right|].
        destruct (feature_ok f) as [a [E1 Ha]]; [apply Hi; now left|apply Hfit; now left|].
        assert (~ In (fname M f) (map fst b)) as Hnb by (intro Q; apply Hn, Ib, Q).
        assert (forall g, In g fs -> str_eqb (fname M f) (fname M g) = false) as Hne.
        { intros g Hg. apply not_true_iff_false. intro Q. apply str_eqb_eq in Q. apply Hn. rewrite Q. now apply in_map. }
        exists (a ++ b). cbn [encodeFeatures]. rewrite E1. cbn [next]. rewrite E. split; [reflexivity|].
        destruct Ha as [[-> S1]|[j [-> S1]]]; cbn [app map fst].
        + split; [exact Nb|]. split; [intros k Hk; right; now apply Ib|]. intros g [<-|Hg]; [|now apply Sb]. now rewrite member_none.
        + split; [now constructor|]. split; [intros k [<-|Hk]; [now left|right; now apply Ib]|].
          intros g [<-|Hg]; cbn [member]; [now rewrite str_eqb_refl|]. rewrite (Hne g Hg). now apply Sb.
    Qed.
  End Rec.

  Variable rank : nat -> nat.
  Variable r : nat.
  Hypothesis Hrank : forall o x, below M G r o -> inside M G o x -> (rank x < rank o)%nat.
  Hypothesis Hfits : forall o f, below M G r o -> In f (features M (oclass G o)) -> fits M G o f.
  Hypothesis Hnames : forall o, below M G r o -> distinct_members M id_name (oclass G o).

  Lemma object_ok : forall fuel o, below M G r o -> (rank o < fuel)%nat -> exists j, encodeObject fuel o = Written j /\ describes o j.
  Proof using Hrank Hfits Hnames.
    induction fuel as [|n IH]; intros o Ho Hf; [lia|]. cbn [JsonModel.encodeObject].
    destruct (Hnames o Ho) as [N1 [N2 N3]].
    destruct (features_ok (encodeObject n) o) with (fs := features M (oclass G o)) as [a [E [Na [Ia Sa]]]]; auto.
    { intros x Hx. apply IH; [now apply below_step with o|]. pose proof (Hrank o x Ho Hx). lia. }
    { apply incl_refl. }
    rewrite E. cbn [next]. eexists. split; [reflexivity|].
    assert (forall k, In k (map fst a) -> exists f, In f (features M (oclass G o)) /\ k = fname M f) as Ka.
    { intros k Hk. apply Ia, in_map_iff in Hk. destruct Hk as [f [<- Hf']]. eauto. }
    assert (~ In (lit "eClass") (map fst a)) as Ce. { intro Q. destruct (Ka _ Q) as [f [H1 H2]]. destruct (N3 f H1) as [H3 _]. congruence. }
    assert (~ In id_name (map fst a)) as Ci. { intro Q. destruct (Ka _ Q) as [f [H1 H2]]. destruct (N3 f H1) as [_ H3]. congruence. }
    assert (map fst (encodeIdentity G id_name o) = [] /\ encodeIdentity G id_name o = [] /\ (id_name <> [] -> identity G o = None) \/
            exists t, encodeIdentity G id_name o = [(id_name, JStr t)] /\ identity G o = Some t) as Hid.
    { unfold encodeIdentity. destruct id_name; [left; repeat split; congruence|]. destruct (identity G o) as [t|]; [right; eauto|left; auto]. }
    assert (str_eqb (lit "eClass") id_name = false) as Ee by (apply not_true_iff_false; intro Q; apply str_eqb_eq in Q; congruence).
    constructor.
    - cbn [map fst]. rewrite map_app. destruct Hid as [[-> [_ _]]|[t [-> _]]]; cbn [app map fst].
      + now constructor.
      + constructor; [|now constructor]. intros [Q|Q]; [congruence|contradiction].
    - cbn [member]. now rewrite str_eqb_refl.
    - intro Hne. cbn [member]. rewrite Ee. destruct Hid as [[_ [-> Q]]|[t [-> Q]]]; rewrite ?Q by assumption; cbn [app member].
      + rewrite member_none by exact Ci. reflexivity.
      + now rewrite str_eqb_refl.
    - intros f Hff. destruct (N3 f Hff) as [H1 H2]. cbn [member].
      assert (str_eqb (lit "eClass") (fname M f) = false) as -> by (apply not_true_iff_false; intro Q; apply str_eqb_eq in Q; congruence).
      destruct Hid as [[_ [-> _]]|[t [-> _]]]; cbn [app member]; [now apply Sa|].
      assert (str_eqb id_name (fname M f) = false) as -> by (apply not_true_iff_false; intro Q; apply str_eqb_eq in Q; congruence). now apply Sa.
    - intros k. cbn [map fst]. intros [<-|Hk]; [now left|]. rewrite map_app, in_app_iff in Hk. destruct Hk as [Hk|Hk]; [|right; right; now apply Ka].
      destruct Hid as [[Q _]|[t [Q _]]]; [rewrite Q in Hk; destruct Hk|]. rewrite Q in Hk. destruct Hk as [<-|[]]. right. now left.
  Qed.
End Proofs.
