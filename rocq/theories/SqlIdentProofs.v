(** Proofs about the identities of the objects of a SQL store. *)
From Verif Require Import Base SqlIdentModel SqlIdentSpec.
Local Open Scope list_scope.
Local Open Scope Z_scope.

Lemma postOrder_within o : forall t, In o (postOrder t) <-> within o t.
Proof.
  fix IH 1. intros [r l]. cbn [postOrder]. rewrite in_app_iff.
  assert (E : In o (flat_map postOrder l) <-> exists t, In t l /\ within o t).
  { induction l as [|t l IHl]; cbn.
    - split; [intros [] | intros (t & [] & _)].
    - rewrite in_app_iff, IHl. pose proof (IH t) as E. clear IH IHl. rewrite E. split.
      + intros [H|(u & H1 & H2)]; [exists t | exists u]; auto.
      + intros (u & [->|H1] & H2); [left | right; exists u]; auto. }
  clear IH. rewrite E. split.
  - intros [(t & Ht & Hw)|[->|[]]]; [eapply within_below; eauto | constructor].
  - intros H. inversion H; subst; [right; left; reflexivity | left; eauto].
Qed.

Section Proofs.
  Context (sqlClass contains : nat -> bool).
  Notation is_sql := (is_sql sqlClass).
  Notation getObjectID := (getObjectID sqlClass).
  Notation setObjectID := (setObjectID sqlClass).
  Notation clearObjectID := (clearObjectID sqlClass).
  Notation getSQLID := (getSQLID sqlClass).
  Notation encodeObject := (encodeObject sqlClass contains).
  Notation encodeValues := (encodeValues sqlClass contains).
  Notation encodeSQLID := (encodeSQLID sqlClass contains).
  Notation decodeObject := (decodeObject sqlClass).

  (** the identifier of an object, 0 if it has none *)
  Definition sid (s : store) (o : nat) : Z :=
    if is_sql s o then sqlid s o else match idOf s o with Some i => i | None => 0 end.

  Record W (s : store) : Prop := {
    W_next : 0 < next s;
    W_rows : forall i c, rows s i = Some c -> 0 < i < next s;
    W_by : forall i o, byID s i = Some o -> (o < count s)%nat /\ sid s o = i /\ rows s i = Some (class_of s o);
    W_sid : forall o, (o < count s)%nat -> sid s o <> 0 -> rows s (sid s o) = Some (class_of s o);
    W_plain : forall o i, (o < count s)%nat -> is_sql s o = false -> idOf s o = Some i -> byID s i = Some o;
    W_new : forall o, (count s <= o)%nat -> sqlid s o = 0 /\ idOf s o = None;
    W_links : forall i m f j, cells s i = Some m -> m f = Some (CId j) -> rows s j <> None;
    W_cells : forall i m, cells s i = Some m -> rows s i <> None;
    W_roots : forall i, In i (roots s) -> rows s i <> None;
    W_vals : forall o f r, In (f, r) (values s o) -> (r < o)%nat;
    W_novals : forall o, (count s <= o)%nat -> values s o = [] }.

  (** every object with an identifier is registered *)
  Definition S_ (s : store) : Prop :=
    forall o, (o < count s)%nat -> sid s o <> 0 -> byID s (sid s o) = Some o.
  (** every object has a row in the table of its class *)
  Definition Full (s : store) : Prop := forall i, rows s i <> None -> cells s i <> None.

  Record Ext (s s' : store) : Prop := {
    E_count : (count s <= count s')%nat;
    E_class : forall o, (o < count s)%nat -> class_of s' o = class_of s o;
    E_sid : forall o, (o < count s)%nat -> sid s o <> 0 -> sid s' o = sid s o;
    E_by : forall i o, byID s i = Some o -> byID s' i = Some o;
    E_rows : forall i c, rows s i = Some c -> rows s' i = Some c;
    E_cells : forall i, rows s i <> None -> cells s' i = cells s i;
    E_roots : roots s' = roots s }.

  Lemma Ext_refl s : Ext s s.
  Proof. constructor; auto. Qed.
  Lemma Ext_trans a b c : Ext a b -> Ext b c -> Ext a c.
  Proof.
    intros H K. constructor.
    - etransitivity; [apply H | apply K].
    - intros o Ho. rewrite (E_class _ _ K), (E_class _ _ H); auto. pose proof (E_count _ _ H); lia.
    - intros o Ho Hn. pose proof (E_count _ _ H).
      rewrite (E_sid _ _ K), (E_sid _ _ H); auto; try lia. rewrite (E_sid _ _ H); auto.
    - intros i o Hi. apply K, H, Hi.
    - intros i o Hi. apply K, H, Hi.
    - intros i Hi. rewrite (E_cells _ _ K), (E_cells _ _ H); auto.
      destruct (rows a i) eqn:E; [|congruence]. rewrite (E_rows _ _ H _ _ E). discriminate.
    - rewrite (E_roots _ _ K). apply H.
  Qed.

  Lemma rows_pos s i : W s -> rows s i <> None -> 0 < i.
  Proof. intros H Hi. destruct (rows s i) eqn:E; [|congruence]. apply (W_rows _ H) in E. lia. Qed.

  Lemma by_zero s : W s -> byID s 0 = None.
  Proof.
    intros H. destruct (byID s 0) eqn:E; auto.
    destruct (W_by _ H _ _ E) as (_ & _ & R). apply (W_rows _ H) in R. lia.
  Qed.

  (** GetObjectID gives the identifier; an object that is not an SQLObject with an identifier is registered *)
  Lemma getObjectID_eq s o : W s -> (o < count s)%nat ->
    getObjectID s o = (sid s o, match byID s (sid s o) with Some _ => true | None => false end).
  Proof.
    intros H Ho. unfold SqlIdentModel.getObjectID, sid. destruct (is_sql s o) eqn:E; auto.
    destruct (idOf s o) eqn:F.
    - rewrite (W_plain _ H _ _ Ho E F). reflexivity.
    - rewrite by_zero by auto. reflexivity.
  Qed.

  Lemma set_count s o i : count (setObjectID s o i) = count s.
  Proof. unfold SqlIdentModel.setObjectID. destruct (is_sql s o); reflexivity. Qed.
  Lemma set_class s o i : class_of (setObjectID s o i) = class_of s.
  Proof. unfold SqlIdentModel.setObjectID. destruct (is_sql s o); reflexivity. Qed.
  Lemma set_values s o i : values (setObjectID s o i) = values s.
  Proof. unfold SqlIdentModel.setObjectID. destruct (is_sql s o); reflexivity. Qed.
  Lemma set_rows s o i : rows (setObjectID s o i) = rows s.
  Proof. unfold SqlIdentModel.setObjectID. destruct (is_sql s o); reflexivity. Qed.
  Lemma set_next s o i : next (setObjectID s o i) = next s.
  Proof. unfold SqlIdentModel.setObjectID. destruct (is_sql s o); reflexivity. Qed.
  Lemma set_cells s o i : cells (setObjectID s o i) = cells s.
  Proof. unfold SqlIdentModel.setObjectID. destruct (is_sql s o); reflexivity. Qed.
  Lemma set_roots s o i : roots (setObjectID s o i) = roots s.
  Proof. unfold SqlIdentModel.setObjectID. destruct (is_sql s o); reflexivity. Qed.
  Lemma set_by s o i k : byID (setObjectID s o i) k = if k =? i then Some o else byID s k.
  Proof. unfold SqlIdentModel.setObjectID. destruct (is_sql s o); reflexivity. Qed.
  Lemma set_sql s o i x : is_sql (setObjectID s o i) x = is_sql s x.
  Proof. unfold SqlIdentModel.is_sql. rewrite set_class. reflexivity. Qed.
  Lemma set_sid s o i x : sid (setObjectID s o i) x = if Nat.eqb x o then i else sid s x.
  Proof.
    unfold sid. rewrite set_sql. unfold SqlIdentModel.setObjectID.
    destruct (Nat.eqb_spec x o) as [->|N].
    - destruct (is_sql s o) eqn:E; cbn; unfold put; rewrite Nat.eqb_refl; reflexivity.
    - destruct (is_sql s o); cbn; unfold put; rewrite (proj2 (Nat.eqb_neq x o) N); reflexivity.
  Qed.

  Lemma set_W s o i : W s -> (o < count s)%nat -> byID s i = None -> rows s i = Some (class_of s o) ->
    sid s o = 0 \/ sid s o = i -> W (setObjectID s o i).
  Proof.
    intros H Ho Hb Hr Hs. pose proof (W_rows _ H _ _ Hr) as Hi.
    constructor; rewrite ?set_count, ?set_class, ?set_rows, ?set_next, ?set_cells, ?set_roots, ?set_values; try apply H.
    - intros k x. rewrite set_by, set_sid. destruct (Z.eqb_spec k i) as [->|N].
      + intros [= <-]. rewrite Nat.eqb_refl. auto.
      + intros E. destruct (W_by _ H _ _ E) as (A & B & C). destruct (Nat.eqb_spec x o) as [->|]; auto.
        destruct Hs as [Hs|Hs]; rewrite Hs in B; [|congruence]. subst k.
        apply (W_rows _ H) in C. lia.
    - intros x Hx. rewrite set_sid. destruct (Nat.eqb_spec x o) as [->|]; intros; auto. apply (W_sid _ H); auto.
    - intros x k Hx Hq Hk. rewrite set_sql in Hq. rewrite set_by.
      destruct (Nat.eqb_spec x o) as [->|N].
      + revert Hk. unfold SqlIdentModel.setObjectID. rewrite Hq. cbn. unfold put. rewrite Nat.eqb_refl.
        intros [= <-]. rewrite Z.eqb_refl. reflexivity.
      + assert (idOf s x = Some k) as Hk'.
        { revert Hk. unfold SqlIdentModel.setObjectID. destruct (is_sql s o); cbn; auto.
          unfold put. rewrite (proj2 (Nat.eqb_neq x o) N). auto. }
        pose proof (W_plain _ H _ _ Hx Hq Hk') as B. destruct (Z.eqb_spec k i); congruence.
    - intros x Hx. unfold SqlIdentModel.setObjectID. destruct (is_sql s o); cbn; unfold put;
        (destruct (Nat.eqb_spec x o); [lia|]); apply H; auto.
  Qed.

  Lemma set_Ext s o i : W s -> (o < count s)%nat -> byID s i = None ->
    sid s o = 0 \/ sid s o = i -> Ext s (setObjectID s o i).
  Proof.
    intros H Ho Hb Hs. constructor; rewrite ?set_count, ?set_class, ?set_rows, ?set_next, ?set_cells, ?set_roots; auto.
    - intros x Hx Hn. rewrite set_sid. destruct (Nat.eqb_spec x o) as [->|]; auto. destruct Hs; congruence.
    - intros k x E. rewrite set_by. destruct (Z.eqb_spec k i); congruence.
  Qed.

  Lemma set_S s o i : S_ s -> (o < count s)%nat -> byID s i = None -> S_ (setObjectID s o i).
  Proof.
    intros H Ho Hb x Hx Hn. rewrite set_count in Hx. rewrite set_sid in *. rewrite set_by.
    destruct (Nat.eqb_spec x o) as [->|]; [rewrite Z.eqb_refl; reflexivity|].
    destruct (Z.eqb_spec (sid s x) i) as [E|]; auto. rewrite <- E in Hb. rewrite (H x Hx Hn) in Hb. discriminate.
  Qed.

  (** *** getSQLID *)
  Lemma getSQLID_spec s o : W s -> (o < count s)%nat ->
    exists s1 b, getSQLID s o = (s1, sid s o, b) /\ W s1 /\ Ext s s1 /\ sid s1 o = sid s o /\ count s1 = count s /\
      (b = true <-> sid s o <> 0) /\ (b = true -> byID s1 (sid s o) <> None) /\ (b = false -> s1 = s) /\
      (S_ s -> s1 = s) /\ cells s1 = cells s /\ rows s1 = rows s /\ values s1 = values s.
  Proof.
    intros H Ho. unfold SqlIdentModel.getSQLID. rewrite getObjectID_eq by auto.
    destruct (byID s (sid s o)) eqn:E.
    - exists s, true. repeat (split; auto using Ext_refl); try congruence.
      intros _ Z0. rewrite Z0, by_zero in E by auto. discriminate.
    - destruct (Z.eqb_spec (sid s o) 0) as [Z0|N]; cbn [negb andb].
      + exists s, false. repeat (split; auto using Ext_refl); try congruence.
      + pose proof (W_sid _ H _ Ho N) as R. rewrite R.
        exists (setObjectID s o (sid s o)), true. split; auto. split; [apply set_W; auto|].
        split; [apply set_Ext; auto|]. split; [rewrite set_sid, Nat.eqb_refl; auto|].
        split; [apply set_count|]. split; [tauto|]. rewrite set_by, Z.eqb_refl.
        split; [congruence|]. split; [congruence|].
        split; [intros HS; rewrite (HS _ Ho N) in E; discriminate|].
        rewrite set_cells, set_rows, set_values. auto.
  Qed.

  (** *** Creating rows and objects *)
  Lemma insertRow_W s c : W s -> W (insertRow s (next s) c).
  Proof.
    intros H. pose proof (W_next _ H) as HN. constructor; cbn; try apply H.
    - lia.
    - intros i k. destruct (Z.eqb_spec i (next s)); [intros; lia|]. intros E. apply (W_rows _ H) in E. lia.
    - intros i o E. destruct (W_by _ H _ _ E) as (A & B & C). split; auto. split; auto.
      destruct (Z.eqb_spec i (next s)) as [->|]; auto. apply (W_rows _ H) in C. lia.
    - intros o Ho Hn. change (sid (insertRow s (next s) c) o) with (sid s o) in *.
      pose proof (W_sid _ H _ Ho Hn) as R. destruct (Z.eqb_spec (sid s o) (next s)) as [E|]; auto.
      rewrite E in R. apply (W_rows _ H) in R. lia.
    - intros i m f j E F. pose proof (W_links _ H _ _ _ _ E F). destruct (j =? next s); congruence.
    - intros i m E. pose proof (W_cells _ H _ _ E). destruct (i =? next s); congruence.
    - intros i E. pose proof (W_roots _ H _ E). destruct (i =? next s); congruence.
  Qed.
  Lemma insertRow_Ext s c : W s -> Ext s (insertRow s (next s) c).
  Proof.
    intros H. constructor; cbn; auto.
    intros i k E. destruct (Z.eqb_spec i (next s)) as [->|]; auto. apply (W_rows _ H) in E. lia.
  Qed.

  Lemma create_W s c : W s -> W (fst (create s c)).
  Proof.
    intros H.
    assert (Hs : forall o, (o < count s)%nat -> put (class_of s) (count s) c o = class_of s o).
    { intros o Ho. unfold put. rewrite (proj2 (Nat.eqb_neq o (count s))) by lia. reflexivity. }
    assert (Hq : forall o, (o < count s)%nat -> is_sql (fst (create s c)) o = is_sql s o).
    { intros o Ho. unfold SqlIdentModel.is_sql. cbn. rewrite Hs; auto. }
    assert (Hi : forall o, (o < count s)%nat -> sid (fst (create s c)) o = sid s o).
    { intros o Ho. unfold sid. rewrite Hq by auto. reflexivity. }
    assert (H0 : sid (fst (create s c)) (count s) = 0).
    { unfold sid. cbn. destruct (W_new _ H (count s)) as [A B]; auto. rewrite A, B.
      destruct (is_sql _ _); reflexivity. }
    assert (Hk : forall o, (o < count s)%nat -> class_of (fst (create s c)) o = class_of s o) by exact Hs.
    assert (Q : count (fst (create s c)) = S (count s) /\ rows (fst (create s c)) = rows s /\ next (fst (create s c)) = next s /\
      byID (fst (create s c)) = byID s /\ idOf (fst (create s c)) = idOf s /\ sqlid (fst (create s c)) = sqlid s /\
      cells (fst (create s c)) = cells s /\ roots (fst (create s c)) = roots s /\ values (fst (create s c)) = values s)
      by (repeat split).
    generalize dependent (fst (create s c)). intros s1 Hq Hi H0 Hk (Q1 & Q2 & Q3 & Q4 & Q5 & Q6 & Q7 & Q8 & Q9).
    constructor; rewrite ?Q1, ?Q2, ?Q3, ?Q4, ?Q5, ?Q6, ?Q7, ?Q8, ?Q9; try apply H.
    - intros i o E. destruct (W_by _ H _ _ E) as (A & B & C). rewrite Hi, Hk by auto. auto.
    - intros o Ho. destruct (Nat.eq_dec o (count s)) as [->|].
      + rewrite H0. congruence.
      + rewrite Hi, Hk by lia. apply (W_sid _ H); lia.
    - intros o i Ho Hp. destruct (Nat.eq_dec o (count s)) as [->|].
      + rewrite (proj2 (W_new _ H (count s) (le_n _))). discriminate.
      + rewrite Hq in Hp by lia. apply (W_plain _ H); auto; lia.
    - intros o Ho. apply (W_new _ H). lia.
    - intros o Ho. apply (W_novals _ H). lia.
  Qed.
  Lemma create_Ext s c : W s -> Ext s (fst (create s c)).
  Proof.
    intros H.
    assert (Hs : forall o, (o < count s)%nat -> put (class_of s) (count s) c o = class_of s o).
    { intros o Ho. unfold put. rewrite (proj2 (Nat.eqb_neq o (count s))) by lia. reflexivity. }
    constructor; cbn; auto.
    intros o Ho _. unfold sid, SqlIdentModel.is_sql. cbn. rewrite Hs; auto.
  Qed.
  Lemma create_sid s c : W s -> sid (fst (create s c)) (count s) = 0.
  Proof.
    intros H. unfold sid. cbn. destruct (W_new _ H (count s)) as [A B]; auto. rewrite A, B.
    destruct (is_sql _ _); reflexivity.
  Qed.
  Lemma create_S s c : W s -> S_ s -> S_ (fst (create s c)).
  Proof.
    intros H HS o Ho Hn. cbn in Ho. destruct (Nat.eq_dec o (count s)) as [->|].
    - rewrite create_sid in Hn by auto. congruence.
    - assert (E : sid (fst (create s c)) o = sid s o).
      { unfold sid, SqlIdentModel.is_sql. cbn. unfold put. rewrite (proj2 (Nat.eqb_neq o (count s))); auto. }
      rewrite E in *. cbn. apply HS; auto. lia.
  Qed.

  (** *** decodeObject *)
  Lemma decodeObject_spec s i : W s -> exists s1 r, decodeObject s i = (s1, r) /\ W s1 /\ Ext s s1 /\
      (S_ s -> S_ s1) /\ cells s1 = cells s /\ rows s1 = rows s /\
      (forall o, r = Some o -> byID s1 i = Some o) /\ (r = None <-> rows s i = None).
  Proof.
    intros H. unfold SqlIdentModel.decodeObject. destruct (byID s i) as [o|] eqn:E.
    - exists s, (Some o). repeat (split; auto using Ext_refl); try congruence.
      destruct (W_by _ H _ _ E) as (_ & _ & R). congruence.
    - destruct (rows s i) as [c|] eqn:R.
      + cbn [create]. set (s1 := fst (create s c)). change (mkS _ _ _ _ _ _ _ _ _ _) with s1.
        assert (H1 : W s1) by (apply create_W; auto).
        assert (Hc : (count s < count s1)%nat) by (cbn; lia).
        assert (Hr : rows s1 i = Some (class_of s1 (count s))).
        { cbn. unfold put. rewrite Nat.eqb_refl. auto. }
        exists (setObjectID s1 (count s) i), (Some (count s)). split; auto.
        pose proof (create_sid s c H) as H0.
        split; [apply set_W; auto|]. split; [eapply Ext_trans; [apply create_Ext; auto | apply set_Ext; auto]|].
        split; [intros; apply set_S; auto; apply create_S; auto|].
        rewrite set_cells, set_rows. split; auto. split; auto. split; [|split; discriminate].
        intros o [= <-]. rewrite set_by, Z.eqb_refl. reflexivity.
      + exists s, None. repeat (split; auto using Ext_refl); discriminate.
  Qed.

  (** *** encodeObject *)
  (** of the rows that were there, and of those that were not, only complete ones are left *)
  Definition Fill (s s' : store) : Prop := forall i, rows s' i <> None -> cells s' i = None -> rows s i <> None.
  Lemma Fill_refl s : Fill s s. Proof. intros i A _. exact A. Qed.

  Lemma insertCells_W s i m : W s -> rows s i <> None -> (forall f j, m f = Some (CId j) -> rows s j <> None) ->
    W (insertCells s i m).
  Proof.
    intros H Hi Hm. constructor; cbn; try apply H.
    - intros k m' f j. destruct (Z.eqb_spec k i) as [->|]; [intros [= <-]; apply Hm | apply H].
    - intros k m'. destruct (Z.eqb_spec k i) as [->|]; [auto | apply H].
  Qed.
  Lemma registerObject_W s o : W s -> W (registerObject s o).
  Proof.
    intros H. constructor; cbn; try apply H.
    - intros x f r. unfold put. destruct (Nat.eqb_spec x o); [intros [] | apply H].
    - intros x Hx. unfold put. destruct (Nat.eqb_spec x o); auto. apply H; auto.
  Qed.

  Definition encodes (enc : store -> nat -> store * option Z) (n : nat) : Prop :=
    forall s o, W s -> (o < count s)%nat -> (o < n)%nat ->
      exists s1 r, enc s o = (s1, r) /\ W s1 /\ Ext s s1 /\ count s1 = count s /\
        (forall i, r = Some i -> sid s1 o = i /\ i <> 0 /\ byID s1 i <> None /\ (sid s o = 0 -> rows s i = None)) /\
        (S_ s -> S_ s1 /\ r <> None /\ Fill s s1).

  Lemma encodeValues_spec enc n : encodes enc n -> forall l s m, W s ->
      (forall f r, In (f, r) l -> (r < count s)%nat /\ (r < n)%nat) ->
      (forall f j, m f = Some (CId j) -> rows s j <> None) ->
      exists s1 r, encodeValues enc s l m = (s1, r) /\ W s1 /\ Ext s s1 /\ count s1 = count s /\
        (forall m', r = Some m' -> forall f j, m' f = Some (CId j) -> rows s1 j <> None) /\
        (S_ s -> S_ s1 /\ r <> None /\ Fill s s1).
  Proof.
    intros He. induction l as [|[f r] l IH]; intros s m H Hl Hm; cbn [SqlIdentModel.encodeValues].
    - exists s, (Some m). repeat (split; auto using Ext_refl, Fill_refl); try congruence. intros m' [= <-]. exact Hm.
    - destruct (Hl f r (or_introl eq_refl)) as [Hr Hn].
      destruct (contains f).
      + destruct (He s r H Hr Hn) as (s1 & x & E & H1 & X1 & C1 & R1 & S1). rewrite E.
        destruct x as [i|].
        * destruct (R1 i eq_refl) as (A & B & C & _).
          destruct (IH s1 (put m f (Some (CId i)))) as (s2 & y & E2 & H2 & X2 & C2 & R2 & S2); auto.
          { intros g q Hq. rewrite C1. apply (Hl g q). right. exact Hq. }
          { intros g j. unfold put. destruct (Nat.eqb_spec g f).
            - intros [= <-]. destruct (byID s1 i) eqn:B1; [|congruence].
              destruct (W_by _ H1 _ _ B1) as (_ & _ & Q). congruence.
            - intros G. apply Hm in G. destruct (rows s j) eqn:G'; [|congruence].
              rewrite (E_rows _ _ X1 _ _ G'). discriminate. }
          exists s2, y. split; auto. split; auto. split; [eapply Ext_trans; eauto|]. split; [congruence|].
          split; auto. intros HS. destruct (S1 HS) as (Sa & Sb & Sc). destruct (S2 Sa) as (Ta & Tb & Tc).
          split; auto. split; auto. intros k K1 K2. destruct (rows s k) eqn:Q; [discriminate|].
          specialize (Tc k K1 K2). rewrite (E_cells _ _ X2 _ Tc) in K2. specialize (Sc k Tc K2). congruence.
        * exists s1, None. split; auto. split; auto. split; auto. split; auto. split; [discriminate|].
          intros HS. destruct (S1 HS) as (_ & Sb & _). congruence.
      + rewrite getObjectID_eq by auto. cbn [fst].
        apply IH; auto. { intros g q Hq. apply (Hl g q). right. exact Hq. }
        intros g j. unfold put. destruct (Nat.eqb_spec g f); [|apply Hm].
        destruct (Z.eqb_spec (sid s r) 0) as [|N]; [discriminate|]. intros [= <-].
        rewrite (W_sid _ H _ Hr N). discriminate.
  Qed.

  Lemma encodeObject_spec n : encodes (encodeObject n) n.
  Proof.
    induction n as [|n IH]; intros s o H Ho Hn; [lia|]. cbn [SqlIdentModel.encodeObject].
    rewrite getObjectID_eq by auto. destruct (byID s (sid s o)) eqn:E.
    { exists s, (Some (sid s o)). split; auto. split; auto. split; [apply Ext_refl|]. split; auto.
      assert (sid s o <> 0) by (intros Z0; rewrite Z0, by_zero in E by auto; discriminate).
      split. { intros i [= <-]. split; auto. split; auto. split; congruence. }
      intros HS. split; auto. split; [discriminate|]. apply Fill_refl. }
    destruct (Z.eqb_spec (sid s o) 0) as [Z0|N].
    - pose proof (W_next _ H) as HN.
      set (s0 := insertRow s (next s) (class_of s o)). set (s1 := setObjectID s0 o (next s)).
      assert (H0 : W s0) by (apply insertRow_W; auto).
      assert (Hb : byID s0 (next s) = None).
      { cbn. destruct (byID s (next s)) eqn:B; auto. destruct (W_by _ H _ _ B) as (_ & _ & Q).
        apply (W_rows _ H) in Q. lia. }
      assert (Hr : rows s0 (next s) = Some (class_of s0 o)). { cbn. rewrite Z.eqb_refl. reflexivity. }
      assert (Hz : sid s0 o = 0) by exact Z0.
      assert (H1 : W s1) by (apply set_W; auto).
      assert (X1 : Ext s s1). { eapply Ext_trans; [apply insertRow_Ext; auto | apply set_Ext; auto]. }
      assert (C1 : count s1 = count s) by (unfold s1; rewrite set_count; reflexivity).
      assert (V1 : values s1 = values s) by (unfold s1; rewrite set_values; reflexivity).
      assert (B1 : byID s1 (next s) = Some o). { unfold s1. rewrite set_by, Z.eqb_refl. reflexivity. }
      destruct (encodeValues_spec _ n IH (values s o) s1 (fun _ => None) H1) as (s2 & y & E2 & H2 & X2 & C2 & R2 & S2).
      { intros f r Hv. rewrite C1. apply (W_vals _ H) in Hv. lia. }
      { discriminate. }
      rewrite E2. pose proof (E_by _ _ X2 _ _ B1) as B2. destruct (W_by _ H2 _ _ B2) as (_ & D2 & R2').
      destruct y as [m|].
      + assert (H3 : W (insertCells s2 (next s) m)). { apply insertCells_W; auto; [congruence|]. apply R2. reflexivity. }
        exists (registerObject (insertCells s2 (next s) m) o), (Some (next s)). split; auto.
        split; [apply registerObject_W; auto|].
        split.
        { pose proof (Ext_trans _ _ _ X1 X2) as X. constructor; cbn; try apply X.
          intros i Hi. destruct (Z.eqb_spec i (next s)) as [->|].
          - destruct (rows s (next s)) eqn:Q; [|congruence]. apply (W_rows _ H) in Q. lia.
          - apply X; auto. }
        split; [cbn; congruence|].
        split. { intros i [= <-]. split; [exact D2|]. split; [lia|]. cbn. split; [congruence|]. intros _.
          destruct (rows s (next s)) eqn:Q; auto. apply (W_rows _ H) in Q. lia. }
        intros HS. assert (SS : S_ s1). { apply set_S; auto. }
        destruct (S2 SS) as (Sa & Sb & Sc). split; [exact Sa|]. split; [discriminate|].
        intros i Hi. cbn in *. destruct (Z.eqb_spec i (next s)) as [->|N]; [discriminate|].
        intros Hc. specialize (Sc i Hi Hc). unfold s1 in Sc. rewrite set_rows in Sc. cbn in Sc.
        rewrite (proj2 (Z.eqb_neq i (next s)) N) in Sc. exact Sc.
      + exists s2, None. split; auto. split; auto. split; [eapply Ext_trans; eauto|]. split; [congruence|].
        split; [discriminate|]. intros HS. assert (SS : S_ s1). { apply set_S; auto. }
        destruct (S2 SS) as (_ & Sb & _). congruence.
    - rewrite (W_sid _ H _ Ho N). exists s, None. split; auto. split; auto. split; [apply Ext_refl|]. split; auto.
      split; [discriminate|]. intros HS. rewrite (HS _ Ho N) in E. discriminate.
  Qed.

  Lemma encodeSQLID_spec s o : W s -> (o < count s)%nat ->
    exists s1 r, encodeSQLID s o = (s1, r) /\ W s1 /\ Ext s s1 /\ count s1 = count s /\
      (forall i, r = Some i -> sid s1 o = i /\ i <> 0 /\ byID s1 i <> None /\ (sid s o = 0 -> rows s i = None)) /\
      (S_ s -> S_ s1 /\ r <> None /\ Fill s s1).
  Proof.
    intros H Ho. unfold SqlIdentModel.encodeSQLID.
    destruct (getSQLID_spec s o H Ho) as (s1 & b & E & H1 & X1 & D1 & C1 & Hb & Hb1 & Hb0 & HS1 & Hc & Hr & Hv).
    rewrite E. destruct b.
    - exists s1, (Some (sid s o)). split; auto. split; auto. split; auto. split; auto.
      split. { intros i [= <-]. assert (sid s o <> 0) by (apply Hb; auto). split; auto. split; auto. split; auto; congruence. }
      intros HS. rewrite (HS1 HS). split; auto. split; [discriminate|]. apply Fill_refl.
    - rewrite (Hb0 eq_refl). apply encodeObject_spec; auto.
  Qed.

  (** *** Reading a reference *)
  Definition cellAt (s : store) (i : Z) (f : nat) : option cell :=
    match cells s i with Some m => m f | None => None end.
  Lemma cellAt_rows s i f j : W s -> cellAt s i f = Some (CId j) -> rows s j <> None.
  Proof.
    intros H. unfold cellAt. destruct (cells s i) eqn:E; [|discriminate]. apply (W_links _ H _ _ _ _ E).
  Qed.

  (** what the answer says of a column *)
  Definition says (s : store) (x : option cell) (a : answer) : Prop :=
    match x with
    | None => a = Nil
    | Some (CUri r) => a = Proxy r
    | Some (CId j) => exists o, a = Object o /\ byID s j = Some o
    end.

  Lemma getValue_spec s i f : W s ->
    exists s1 a, getValue sqlClass s i f = (s1, a) /\ W s1 /\ Ext s s1 /\ (S_ s -> S_ s1) /\
      cells s1 = cells s /\ rows s1 = rows s /\ says s1 (cellAt s i f) a.
  Proof.
    intros H. unfold getValue. fold (cellAt s i f). destruct (cellAt s i f) as [[j|r]|] eqn:E; cbn [decodeCell].
    - destruct (decodeObject_spec s j H) as (s1 & r & D & H1 & X1 & S1 & C1 & R1 & B1 & N1). rewrite D.
      destruct r as [o|].
      + exists s1, (Object o). repeat (split; auto). cbn. exists o. auto.
      + exfalso. apply (cellAt_rows _ _ _ _ H E), N1. reflexivity.
    - exists s, (Proxy r). repeat (split; auto using Ext_refl).
    - exists s, Nil. repeat (split; auto using Ext_refl).
  Qed.

  Lemma get_spec s o f : W s -> (o < count s)%nat ->
    exists s1 a, get sqlClass s o f = (s1, a) /\ W s1 /\ Ext s s1 /\ (S_ s -> S_ s1) /\
      cells s1 = cells s /\ rows s1 = rows s /\
      (if sid s o =? 0 then a = Nil else says s1 (cellAt s (sid s o) f) a).
  Proof.
    intros H Ho. unfold get.
    destruct (getSQLID_spec s o H Ho) as (s1 & b & E & H1 & X1 & D1 & C1 & Hb & Hb1 & Hb0 & HS1 & Hc & Hr & Hv).
    rewrite E. destruct b.
    - destruct (getValue_spec s1 (sid s o) f H1) as (s2 & a & V & H2 & X2 & S2 & C2 & R2 & B2).
      exists s2, a. split; auto. split; auto. split; [eapply Ext_trans; eauto|].
      split; [intros HS; apply S2; rewrite (HS1 HS); auto|]. split; [congruence|]. split; [congruence|].
      rewrite (proj2 (Z.eqb_neq _ _)) by (apply Hb; auto). unfold cellAt in *. rewrite Hc in B2. exact B2.
    - exists s1, Nil. split; auto. split; auto. split; auto. split; [intros HS; rewrite (HS1 HS); auto|].
      split; auto. split; auto. destruct (Z.eqb_spec (sid s o) 0); auto. destruct Hb as [_ Hb]. discriminate (Hb n).
  Qed.

  (** *** Setting one *)
  Definition encoded (s : store) (f : nat) (v : option nat) (x : option cell) : Prop :=
    match v with
    | None => x = None
    | Some r =>
        if contains f then sid s r <> 0 /\ x = Some (CId (sid s r))
        else x = Some (if sid s r =? 0 then CUri r else CId (sid s r))
    end.

  Lemma encodeValue_spec s f v : W s -> (forall r, v = Some r -> (r < count s)%nat) ->
    exists s1 x, encodeValue sqlClass contains s f v = (s1, x) /\ W s1 /\ Ext s s1 /\ count s1 = count s /\
      (forall c, x = Some c -> encoded s1 f v c) /\ (S_ s -> S_ s1 /\ x <> None /\ Fill s s1).
  Proof.
    intros H Hv. unfold encodeValue. destruct v as [r|].
    - specialize (Hv r eq_refl). destruct (contains f) eqn:F.
      + destruct (encodeSQLID_spec s r H Hv) as (s1 & y & E & H1 & X1 & C1 & R1 & S1). rewrite E.
        destruct y as [i|].
        * destruct (R1 i eq_refl) as (A & B & _). exists s1, (Some (Some (CId i))). split; auto. split; auto. split; auto.
          split; auto. split; [intros c [= <-]; unfold encoded; rewrite F, A; auto|].
          intros HS. destruct (S1 HS) as (P & _ & Q). split; auto. split; auto. discriminate.
        * exists s1, None. split; auto. split; auto. split; auto. split; auto. split; [discriminate|].
          intros HS. destruct (S1 HS) as (P & Q & _). congruence.
      + rewrite getObjectID_eq by auto. cbn [fst]. eexists s, _. split; auto. split; auto. split; [apply Ext_refl|].
        split; auto. split; [intros c [= <-]; unfold encoded; rewrite F; reflexivity|].
        intros HS. split; auto. split; [discriminate|]. apply Fill_refl.
    - exists s, (Some None). split; auto. split; auto. split; [apply Ext_refl|]. split; auto.
      split; [intros c [= <-]; reflexivity|]. intros HS. split; auto. split; [discriminate|]. apply Fill_refl.
  Qed.

  Lemma Fill_Full s s' : Full s -> Ext s s' -> Fill s s' -> Full s'.
  Proof.
    intros HF X Hf i Hi Hc. specialize (Hf i Hi Hc). rewrite (E_cells _ _ X _ Hf) in Hc. exact (HF i Hf Hc).
  Qed.
  Lemma Full_eq s s' : cells s' = cells s -> rows s' = rows s -> Full s -> Full s'.
  Proof. intros A B HF i. rewrite A, B. apply HF. Qed.

  Lemma updateCell_W s i f x : W s -> (forall j, x = Some (CId j) -> rows s j <> None) -> W (updateCell s i f x).
  Proof.
    intros H Hx. constructor; cbn; try apply H.
    - intros k m g j. destruct (Z.eqb_spec k i) as [->|]; [|apply H].
      destruct (cells s i) eqn:E; [|discriminate]. intros [= <-]. unfold put.
      destruct (Nat.eqb g f); [apply Hx | apply (W_links _ H _ _ _ _ E)].
    - intros k m. destruct (Z.eqb_spec k i) as [->|]; [|apply H].
      destruct (cells s i) eqn:E; [|discriminate]. intros _. apply (W_cells _ H _ _ E).
  Qed.
  Lemma encoded_rows s f v x j : W s -> (forall r, v = Some r -> (r < count s)%nat) -> encoded s f v x ->
    x = Some (CId j) -> rows s j <> None.
  Proof.
    intros H Hv He ->. destruct v as [r|]; cbn in He; [|discriminate]. specialize (Hv r eq_refl).
    destruct (contains f).
    - destruct He as [N [= ->]]. rewrite (W_sid _ H _ Hv N). discriminate.
    - destruct (Z.eqb_spec (sid s r) 0) as [|N]; inversion He; subst. rewrite (W_sid _ H _ Hv N). discriminate.
  Qed.

  Lemma set_spec s o f v need : W s -> (o < count s)%nat -> (forall r, v = Some r -> (r < count s)%nat) ->
    (exists s1, set sqlClass contains s o f v need = (s1, Failed) /\ W s1 /\ Ext s s1 /\ ~ (S_ s /\ Full s)) \/
    (exists s1 x a, set sqlClass contains s o f v need = (updateCell s1 (sid s1 o) f x, a) /\ a <> Failed /\
       W s1 /\ Ext s s1 /\ sid s1 o <> 0 /\ (sid s o = 0 -> rows s (sid s1 o) = None) /\ encoded s1 f v x /\
       W (updateCell s1 (sid s1 o) f x) /\ (S_ s -> Full s -> S_ s1 /\ Full s1)).
  Proof.
    intros H Ho Hv. unfold set.
    destruct (encodeSQLID_spec s o H Ho) as (s1 & y & E & H1 & X1 & C1 & R1 & S1). rewrite E.
    destruct y as [i|].
    2:{ left. exists s1. split; auto. split; auto. split; auto. intros [HS _]. destruct (S1 HS) as (_ & N & _). congruence. }
    destruct (R1 i eq_refl) as (A & B & C & D).
    assert (exists s2 a, (if need then getValue sqlClass s1 i f else (s1, Nothing)) = (s2, a) /\ W s2 /\ Ext s1 s2 /\
      (S_ s1 -> S_ s2) /\ (Full s1 -> Full s2) /\ a <> Failed) as (s2 & a & Eg & H2 & X2 & S2 & F2 & Na).
    { destruct need.
      - destruct (getValue_spec s1 i f H1) as (s2 & a & V & H2 & X2 & S2 & C2 & R2 & B2).
        exists s2, a. repeat (split; auto); [intros F; eapply Full_eq; eauto|].
        intros ->. destruct (cellAt s1 i f) as [[]|]; cbn in B2; try discriminate. destruct B2 as (? & ? & _). discriminate.
      - exists s1, Nothing. repeat (split; auto using Ext_refl). discriminate. }
    rewrite Eg.
    destruct (encodeValue_spec s2 f v H2) as (s3 & x & Ev & H3 & X3 & C3 & R3 & S3).
    { intros r Hr. pose proof (E_count _ _ X2). rewrite C1 in *. specialize (Hv r Hr). lia. }
    rewrite Ev. pose proof (Ext_trans _ _ _ (Ext_trans _ _ _ X1 X2) X3) as X.
    assert (Hsid : sid s3 o = i).
    { rewrite <- A. assert (sid s2 o = sid s1 o). { apply (E_sid _ _ X2); [lia|congruence]. }
      rewrite <- H0. apply (E_sid _ _ X3); [pose proof (E_count _ _ X2); lia | congruence]. }
    destruct x as [x|].
    - right. exists s3, x, a.
      assert (Hx : encoded s3 f v x) by (apply R3; reflexivity).
      split. { rewrite Hsid. destruct a; try reflexivity. congruence. }
      split; auto. split; auto. split; auto. split; [congruence|]. split; [rewrite Hsid; auto|]. split; auto.
      split. { apply updateCell_W; auto. intros j. apply (encoded_rows s3 f v x j); auto.
        intros r Hr. pose proof (E_count _ _ X). specialize (Hv r Hr). lia. }
      intros HS HF. destruct (S1 HS) as (Sa & _ & Sc). destruct (S3 (S2 Sa)) as (Ta & _ & Tc).
      split; auto. eapply Fill_Full; [|exact X3|exact Tc]. apply F2. eapply Fill_Full; eauto.
    - left. exists s3. split. { destruct a; try reflexivity. congruence. }
      split; auto. split; auto. intros [HS HF]. destruct (S1 HS) as (Sa & _ & Sc).
      destruct (S3 (S2 Sa)) as (_ & Tb & _). congruence.
  Qed.

  (** *** Roots *)
  Definition objects_of (s : store) (l : list Z) (L : list nat) : Prop :=
    Forall2 (fun i o => byID s i = Some o) l L.
  Lemma objects_of_Ext s s' l L : Ext s s' -> objects_of s l L -> objects_of s' l L.
  Proof. intros X H. induction H; constructor; auto. apply X. auto. Qed.

  Lemma decodeRoots_spec l : forall s, W s -> (forall i, In i l -> rows s i <> None) ->
    exists s1 L, decodeRoots sqlClass s l = (s1, Some L) /\ W s1 /\ Ext s s1 /\ (S_ s -> S_ s1) /\
      cells s1 = cells s /\ rows s1 = rows s /\ objects_of s1 l L.
  Proof.
    induction l as [|i l IH]; intros s H Hl; cbn [decodeRoots].
    - exists s, []. repeat (split; auto using Ext_refl). constructor.
    - destruct (decodeObject_spec s i H) as (s1 & r & D & H1 & X1 & S1 & C1 & R1 & B1 & N1). rewrite D.
      destruct r as [o|]; [|exfalso; apply (Hl i (or_introl eq_refl)), N1; reflexivity].
      destruct (IH s1 H1) as (s2 & L & E & H2 & X2 & S2 & C2 & R2 & O2).
      { intros k Hk. rewrite R1. apply Hl. right. exact Hk. }
      rewrite E. exists s2, (o :: L). split; auto. split; auto. split; [eapply Ext_trans; eauto|].
      split; auto. split; [congruence|]. split; [congruence|]. constructor; auto. apply X2. auto.
  Qed.
  Lemma decodeRoots_known s l L : objects_of s l L -> decodeRoots sqlClass s l = (s, Some L).
  Proof.
    induction 1 as [|i o l L E _ IH]; cbn [decodeRoots]; auto.
    unfold SqlIdentModel.decodeObject. rewrite E, IH. reflexivity.
  Qed.

  Lemma setRoots_W s l : W s -> (forall i, In i l -> rows s i <> None) -> W (setRoots s l).
  Proof. intros H Hl. constructor; cbn; auto; apply H. Qed.

  (** *** Unregistering *)
  Lemma clear_sid s o x : sid (clearObjectID s o) x = if Nat.eqb x o && negb (is_sql s o) then 0 else sid s x.
  Proof.
    unfold sid, SqlIdentModel.clearObjectID. change (is_sql (mkS _ _ _ _ _ _ _ _ _ _) x) with (is_sql s x). cbn.
    destruct (is_sql s o) eqn:E; cbn; [rewrite andb_false_r; reflexivity|]. rewrite andb_true_r. unfold put.
    destruct (Nat.eqb_spec x o) as [->|]; [rewrite E|]; reflexivity.
  Qed.
  Lemma clear_by s o k : byID (clearObjectID s o) k = if k =? sid s o then None else byID s k.
  Proof. reflexivity. Qed.

  Lemma clear_W s o : W s -> (o < count s)%nat -> W (clearObjectID s o).
  Proof.
    intros H Ho. constructor; try (cbn; apply H).
    - intros i x E. rewrite clear_by in E. destruct (Z.eqb_spec i (sid s o)) as [|N]; [discriminate|].
      destruct (W_by _ H _ _ E) as (A & B & C). split; auto. split; auto. rewrite clear_sid.
      destruct (Nat.eqb_spec x o) as [->|]; cbn; auto. congruence.
    - intros x Hx Hn. rewrite clear_sid in *. destruct (Nat.eqb x o && negb (is_sql s o)); [congruence|].
      apply (W_sid _ H); auto.
    - intros x i Hx Hq Hi. change (is_sql (clearObjectID s o) x) with (is_sql s x) in Hq.
      assert (Nat.eqb x o && negb (is_sql s o) = false /\ idOf s x = Some i) as [N Hi'].
      { revert Hi. cbn. destruct (is_sql s o) eqn:E; cbn; [rewrite andb_false_r; auto|]. unfold put.
        destruct (Nat.eqb x o); [discriminate|]. auto. }
      rewrite clear_by. pose proof (W_plain _ H _ _ Hx Hq Hi') as B.
      destruct (Z.eqb_spec i (sid s o)) as [->|]; auto. exfalso.
      destruct (W_by _ H _ _ B) as (_ & C & R).
      assert (Z0 : sid s o <> 0). { intros Z0. rewrite Z0, by_zero in B by auto. discriminate. }
      pose proof (W_sid _ H _ Ho Z0) as R'. rewrite R in R'. injection R' as R'.
      assert (is_sql s o = false) as Q by (unfold SqlIdentModel.is_sql in *; congruence).
      rewrite Q in N. destruct (Nat.eqb_spec x o); [discriminate|].
      assert (F : byID s (sid s o) = Some o).
      { revert Z0. unfold sid. rewrite Q. destruct (idOf s o) eqn:G; [|congruence]. intros _. apply (W_plain _ H); auto. }
      congruence.
    - intros x Hx. cbn. destruct (W_new _ H x Hx) as [A B]. destruct (is_sql s o); auto. unfold put.
      destruct (Nat.eqb x o); auto.
  Qed.

  Lemma clear_all_W l : forall s, W s -> (forall o, In o l -> (o < count s)%nat) -> W (fold_left clearObjectID l s).
  Proof.
    induction l as [|o l IH]; intros s H Hl; cbn; auto. apply IH; [apply clear_W; auto; apply Hl; left; auto|].
    intros x Hx. apply (Hl x). right. exact Hx.
  Qed.

  Definition U s : Prop := forall o x, (o < count s)%nat -> sid s o <> 0 -> byID s (sid s o) = Some x -> x = o.
  Lemma clear_U s o : W s -> U s -> U (clearObjectID s o).
  Proof.
    intros H HU x y Hx. rewrite clear_sid, clear_by. destruct (Nat.eqb x o && negb (is_sql s o)); [congruence|].
    destruct (sid s x =? sid s o); [discriminate|]. apply HU. exact Hx.
  Qed.
  Lemma clear_exact l : forall s, W s -> U s -> (forall o, In o l -> (o < count s)%nat) -> forall i x,
    byID (fold_left clearObjectID l s) i = Some x <-> byID s i = Some x /\ ~ In x l.
  Proof.
    induction l as [|o l IH]; intros s H HU Hl i x; cbn [fold_left]. { cbn. tauto. }
    assert (Ho : (o < count s)%nat) by (apply Hl; left; auto).
    rewrite IH; [|apply clear_W; auto | apply clear_U; auto | intros y Hy; apply (Hl y); right; auto].
    rewrite clear_by. cbn [In]. destruct (Z.eqb_spec i (sid s o)) as [->|N].
    - split; [intros [? _]; discriminate|]. intros [E F]. exfalso. apply F. left. symmetry. apply HU; auto.
      intros Z0. rewrite Z0, by_zero in E by auto. discriminate.
    - split; [intros [E F]; split; auto | tauto]. intros [->|G]; auto. destruct (W_by _ H _ _ E) as (_ & G & _). congruence.
  Qed.

  Lemma fold_clear_frame l : forall s, count (fold_left clearObjectID l s) = count s /\
    class_of (fold_left clearObjectID l s) = class_of s /\ sqlid (fold_left clearObjectID l s) = sqlid s /\
    rows (fold_left clearObjectID l s) = rows s /\ cells (fold_left clearObjectID l s) = cells s /\
    roots (fold_left clearObjectID l s) = roots s.
  Proof. induction l as [|o l IH]; intros s; cbn [fold_left]; [repeat split|]. apply (IH (clearObjectID s o)). Qed.

  (** *** Creation by the program *)
  Lemma new_W s c v : W s -> (forall f r, In (f, r) v -> (r < count s)%nat) -> W (new s c v 0).
  Proof.
    intros H Hv. pose proof (create_W s c H) as K.
    assert (Hz : forall o, put (sqlid s) (count s) 0 o = sqlid s o).
    { intros o. unfold put. destruct (Nat.eqb_spec o (count s)) as [->|]; auto. symmetry. apply (W_new _ H); auto. }
    assert (Hs : forall o, sid (new s c v 0) o = sid (fst (create s c)) o).
    { intros o. unfold sid. change (is_sql (new s c v 0) o) with (is_sql (fst (create s c)) o).
      cbn [new sqlid fst create]. rewrite Hz. reflexivity. }
    constructor.
    - apply (W_next _ K).
    - apply (W_rows _ K).
    - intros i o E. rewrite Hs. apply (W_by _ K _ _ E).
    - intros o. rewrite Hs. apply (W_sid _ K).
    - apply (W_plain _ K).
    - intros o Ho. cbn. rewrite Hz. apply (W_new _ K o Ho).
    - apply (W_links _ K).
    - apply (W_cells _ K).
    - apply (W_roots _ K).
    - intros o f r. cbn. unfold put. destruct (Nat.eqb_spec o (count s)) as [->|]; [apply Hv | apply (W_vals _ H)].
    - intros o Ho. cbn in *. unfold put. destruct (Nat.eqb_spec o (count s)); [lia|]. apply (W_novals _ H). lia.
  Qed.
  Lemma new_sid s c v o : W s -> sid (new s c v 0) o = sid (fst (create s c)) o.
  Proof.
    intros H.
    assert (Hz : put (sqlid s) (count s) 0 o = sqlid s o).
    { unfold put. destruct (Nat.eqb_spec o (count s)) as [->|]; auto. symmetry. apply (W_new _ H); auto. }
    unfold sid. change (is_sql (new s c v 0) o) with (is_sql (fst (create s c)) o).
    cbn [new sqlid fst create]. rewrite Hz. reflexivity.
  Qed.
  Lemma new_Ext s c v : W s -> Ext s (new s c v 0).
  Proof.
    intros H. pose proof (create_Ext s c H) as X. constructor; try apply X.
    intros o Ho Hn. rewrite new_sid by auto. apply X; auto.
  Qed.
  Lemma new_S s c v : W s -> S_ s -> S_ (new s c v 0).
  Proof. intros H HS o Ho. rewrite new_sid by auto. apply (create_S s c H HS o Ho). Qed.

  (** *** Calls *)
  Definition Good (s : store) : Prop := W s /\ S_ s /\ Full s.
  Notation perform := (perform sqlClass contains).

  Lemma addRoot_spec s o : W s -> (o < count s)%nat ->
    (exists s1, addRoot sqlClass contains s o = (s1, Failed) /\ W s1 /\ Ext s s1 /\ ~ S_ s) \/
    (exists s1, addRoot sqlClass contains s o = (setRoots s1 (roots s ++ [sid s1 o]), Nothing) /\ W s1 /\ Ext s s1 /\
       sid s1 o <> 0 /\ W (setRoots s1 (roots s ++ [sid s1 o])) /\ (S_ s -> Full s -> S_ s1 /\ Full s1)).
  Proof.
    intros H Ho. unfold addRoot.
    destruct (encodeObject_spec (S o) s o H Ho (Nat.lt_succ_diag_r o)) as (s1 & y & E & H1 & X1 & C1 & R1 & S1). rewrite E.
    destruct y as [i|].
    - right. destruct (R1 i eq_refl) as (A & B & _). exists s1. rewrite A, (E_roots _ _ X1). split; auto.
      split; auto. split; auto. split; auto. split.
      { apply setRoots_W; auto. intros k Hk. apply in_app_iff in Hk. destruct Hk as [Hk|[<-|[]]].
        - apply (W_roots _ H1). rewrite (E_roots _ _ X1). exact Hk.
        - subst i. rewrite (W_sid _ H1); auto; [discriminate | lia]. }
      intros HS HF. destruct (S1 HS) as (P & _ & Q). split; auto. eapply Fill_Full; eauto.
    - left. exists s1. split; auto. split; auto. split; auto. intros HS. destruct (S1 HS) as (_ & N & _). congruence.
  Qed.

  Lemma removeRoot_spec s o : W s -> (o < count s)%nat ->
    exists s1, removeRoot sqlClass s o =
        (if sid s o =? 0 then s1 else setRoots s1 (filter (fun k => negb (k =? sid s o)) (roots s)), Nothing) /\
      W s1 /\ Ext s s1 /\ (S_ s -> s1 = s) /\ W (fst (removeRoot sqlClass s o)).
  Proof.
    intros H Ho. unfold removeRoot.
    destruct (getSQLID_spec s o H Ho) as (s1 & b & E & H1 & X1 & D1 & C1 & Hb & Hb1 & Hb0 & HS1 & Hc & Hr & Hv).
    rewrite E. exists s1. destruct b.
    - rewrite (proj2 (Z.eqb_neq _ _)) by (apply Hb; auto). rewrite (E_roots _ _ X1). split; auto. split; auto. split; auto.
      split; auto. cbn. apply setRoots_W; auto. intros i Hi. apply filter_In in Hi. destruct Hi as [Hi _].
      apply (W_roots _ H1). rewrite (E_roots _ _ X1). exact Hi.
    - destruct (Z.eqb_spec (sid s o) 0) as [|N]; [|destruct Hb as [_ Hb]; discriminate (Hb N)].
      split; auto.
  Qed.

  Lemma getRoots_spec s : W s -> exists s1 L, getRoots sqlClass s = (s1, Roots L) /\ W s1 /\ Ext s s1 /\ (S_ s -> S_ s1) /\
      cells s1 = cells s /\ rows s1 = rows s /\ objects_of s1 (roots s1) L.
  Proof.
    intros H. unfold getRoots.
    destruct (decodeRoots_spec (roots s) s H (W_roots _ H)) as (s1 & L & E & H1 & X1 & S1 & C1 & R1 & O1). rewrite E.
    exists s1, L. rewrite (E_roots _ _ X1). repeat (split; auto).
  Qed.

  (** calls keep the invariants *)
  Lemma own_W s k : W s -> own s k -> allowed s k -> W (fst (perform s k)).
  Proof.
    intros H Hk Ha. destruct k as [c v|c i|o f|o f v r|o|o| |t]; cbn [SqlIdentModel.perform fst allowed own] in *.
    - apply new_W; auto.
    - destruct Hk.
    - destruct (get_spec s o f H Ha) as (s1 & a & E & H1 & _). rewrite E. exact H1.
    - destruct Ha as [Ho Hv].
      destruct (set_spec s o f v r H Ho) as [(s1 & E & H1 & _)|(s1 & x & a & E & _ & _ & _ & _ & _ & _ & H1 & _)].
      { intros q ->. exact Hv. }
      + rewrite E. exact H1.
      + rewrite E. exact H1.
    - destruct (addRoot_spec s o H Ha) as [(s1 & E & H1 & _)|(s1 & E & _ & _ & _ & H1 & _)]; rewrite E; exact H1.
    - destruct (removeRoot_spec s o H Ha) as (s1 & E & _ & _ & _ & H1). exact H1.
    - destruct (getRoots_spec s H) as (s1 & L & E & H1 & _). rewrite E. exact H1.
    - apply clear_all_W; auto. intros o Ho. apply Ha, postOrder_within, Ho.
  Qed.

  Lemma steady_Good s k : Good s -> steady s k -> allowed s k ->
    Good (fst (perform s k)) /\ snd (perform s k) <> Failed.
  Proof.
    intros (H & HS & HF) Hk Ha.
    assert (HW : W (fst (perform s k))). { apply own_W; auto. destruct k; cbn in *; tauto. }
    destruct k as [c v|c i|o f|o f v r|o|o| |t]; cbn [SqlIdentModel.perform fst snd allowed steady] in *; try contradiction.
    - split; [|discriminate]. split; auto. split; [apply new_S; auto | exact HF].
    - destruct (get_spec s o f H Ha) as (s1 & a & E & H1 & X1 & S1 & C1 & R1 & B1). rewrite E in *. cbn in *.
      split; [split; auto; split; auto; eapply Full_eq; eauto|]. intros ->.
      destruct (sid s o =? 0); [discriminate|]. destruct (cellAt s (sid s o) f) as [[]|]; cbn in B1; try discriminate.
      destruct B1 as (? & ? & _). discriminate.
    - destruct Ha as [Ho Hv].
      destruct (set_spec s o f v r H Ho) as [(s1 & E & _ & _ & N)|(s1 & x & a & E & Na & H1 & X1 & _ & _ & _ & HW' & Hg)].
      { intros q ->. exact Hv. }
      + tauto.
      + rewrite E in *. cbn in *. split; auto. split; auto. destruct (Hg HS HF) as [A B]. split; auto.
        intros i Hi. cbn in *. specialize (B i Hi). destruct (i =? sid s1 o); auto. destruct (cells s1 i); congruence.
    - destruct (addRoot_spec s o H Ha) as [(s1 & E & _ & _ & N)|(s1 & E & H1 & X1 & _ & HW' & Hg)]; [tauto|].
      rewrite E in *. cbn in *. split; [|discriminate]. split; [exact HW'|]. exact (Hg HS HF).
    - destruct (removeRoot_spec s o H Ha) as (s1 & E & _ & _ & Hs & _). rewrite (Hs HS) in E. rewrite E in *. cbn in *.
      split; [|discriminate]. split; auto. destruct (sid s o =? 0); auto.
    - destruct (getRoots_spec s H) as (s1 & L & E & H1 & X1 & S1 & C1 & R1 & _). rewrite E in *. cbn in *.
      split; [|discriminate]. split; auto. split; auto. eapply Full_eq; eauto.
  Qed.

  Lemma runs_W (P : store -> call -> Prop) s h s' : (forall s k, P s k -> own s k) -> runs sqlClass contains P s h s' -> W s -> W s'.
  Proof. intros HP R. induction R as [|s k l s1 s2 Hp Ha -> R IH]; auto. intros H. apply IH, own_W; auto. Qed.
  Lemma runs_Good (P : store -> call -> Prop) s h s' : (forall s k, P s k -> steady s k) -> runs sqlClass contains P s h s' -> Good s -> Good s'.
  Proof. intros HP R. induction R as [|s k l s1 s2 Hp Ha -> R IH]; auto. intros H. apply IH, steady_Good; auto. Qed.

  Lemma opened_W r n c l : good_db r n c l -> W (opened r n c l).
  Proof.
    intros H. constructor; cbn; auto; try apply H; try discriminate; try lia; try tauto.
  Qed.
  Lemma opened_Good r n c l : good_db r n c l -> Good (opened r n c l).
  Proof.
    intros H. split; [apply opened_W; auto|]. split; [intros o Ho; cbn in Ho; lia|].
    intros i Hi. cbn in *. destruct (r i) eqn:E; [|congruence]. apply (good_classes _ _ _ _ H _ _ E).
  Qed.
  Lemma reached_W s : reached sqlClass contains own s -> W s.
  Proof. intros (r & n & c & l & h & Hd & R). eapply runs_W; eauto using opened_W. Qed.
  Lemma reached_Good s : reached sqlClass contains steady s -> Good s.
  Proof. intros (r & n & c & l & h & Hd & R). eapply runs_Good; eauto using opened_Good. Qed.

  (** *** What calls leave unchanged *)
  Lemma steady_keeps s k o f : Good s -> steady s k -> allowed s k -> leaves o f s k ->
    (o < count s)%nat -> sid s o <> 0 ->
    (o < count (fst (perform s k)))%nat /\ sid (fst (perform s k)) o = sid s o /\
    cellAt (fst (perform s k)) (sid s o) f = cellAt s (sid s o) f /\
    (forall i x, byID s i = Some x -> byID (fst (perform s k)) i = Some x).
  Proof.
    intros (H & HS & HF) Hk Ha [_ Hl] Ho Hn.
    assert (HX : forall s1, Ext s s1 -> (o < count s1)%nat /\ sid s1 o = sid s o /\
      cellAt s1 (sid s o) f = cellAt s (sid s o) f /\ (forall i x, byID s i = Some x -> byID s1 i = Some x)).
    { intros s1 X. pose proof (E_count _ _ X). split; [lia|]. split; [apply X; auto|]. split; [|apply X].
      unfold cellAt. rewrite (E_cells _ _ X); auto. rewrite (W_sid _ H); auto. discriminate. }
    destruct k as [c v|c i|p g|p g v r|p|p| |t]; cbn [SqlIdentModel.perform fst snd allowed steady] in *; try contradiction.
    - apply HX, new_Ext; auto.
    - destruct (get_spec s p g H Ha) as (s1 & a & E & _ & X1 & _). rewrite E. apply HX; auto.
    - destruct Ha as [Hp Hv].
      destruct (set_spec s p g v r H Hp) as [(s1 & E & _ & X & _)|(s1 & x & a & E & Na & H1 & X1 & Hq & _ & _ & _ & Hg)].
      { intros q ->. exact Hv. }
      + rewrite E. apply HX; auto.
      + rewrite E. cbn [fst]. destruct (HX _ X1) as (A & B & C & D). split; auto. split; auto. split; auto.
        unfold cellAt in *. cbn. destruct (Z.eqb_spec (sid s o) (sid s1 p)) as [Eq|]; auto.
        assert (p = o).
        { destruct (Hg HS HF) as [S1 _]. pose proof (S1 o A) as P1. rewrite B in P1. specialize (P1 Hn).
          pose proof (E_count _ _ X1). pose proof (S1 p ltac:(lia) Hq) as P2. congruence. }
        subst p. destruct Hl as [[]|Hl]; auto. destruct (cells s1 (sid s o)); auto. unfold put.
        destruct (Nat.eqb_spec f g); [congruence|auto].
    - destruct (addRoot_spec s p H Ha) as [(s1 & E & _ & X & _)|(s1 & E & H1 & X1 & _)]; rewrite E; [apply HX; auto|].
      cbn [fst]. destruct (HX _ X1) as (A & B & C & D). repeat (split; auto).
    - destruct (removeRoot_spec s p H Ha) as (s1 & E & _ & X1 & _). rewrite E. cbn [fst].
      destruct (HX _ X1) as (A & B & C & D). destruct (sid s p =? 0); repeat (split; auto).
    - destruct (getRoots_spec s H) as (s1 & L & E & _ & X1 & _). rewrite E. apply HX; auto.
  Qed.

  Lemma runs_keep o f s h s' : runs sqlClass contains (leaves o f) s h s' -> Good s -> (o < count s)%nat -> sid s o <> 0 ->
    Good s' /\ (o < count s')%nat /\ sid s' o = sid s o /\ cellAt s' (sid s o) f = cellAt s (sid s o) f /\
    (forall i x, byID s i = Some x -> byID s' i = Some x).
  Proof.
    intros R. induction R as [|s k l s1 s2 Hp Ha -> R IH]; intros HG Ho Hn; [repeat (split; auto)|].
    destruct (steady_keeps s k o f HG (proj1 Hp) Ha Hp Ho Hn) as (A & B & C & D).
    destruct (steady_Good s k HG (proj1 Hp) Ha) as [G _].
    destruct IH as (E1 & E2 & E3 & E4 & E5); auto; [congruence|]. rewrite B in *.
    repeat (split; auto); congruence.
  Qed.

  (** what is read of a column whose objects are in memory *)
  Definition known (s : store) (x : option cell) (a : answer) : Prop := says s x a.
  Lemma get_known s o f a : Good s -> (o < count s)%nat -> sid s o <> 0 ->
    says s (cellAt s (sid s o) f) a -> answers sqlClass contains s (Get o f) = a.
  Proof.
    intros (H & HS & HF) Ho Hn Hs. unfold answers. cbn [SqlIdentModel.perform].
    destruct (get_spec s o f H Ho) as (s1 & b & E & H1 & X1 & S1 & C1 & R1 & B1). rewrite E. cbn.
    rewrite (proj2 (Z.eqb_neq _ _) Hn) in B1.
    destruct (cellAt s (sid s o) f) as [[j|q]|]; cbn in *; try congruence.
    destruct Hs as (x & -> & Hx). destruct B1 as (y & -> & Hy). rewrite (E_by _ _ X1 _ _ Hx) in Hy. congruence.
  Qed.

  Lemma get_then s o f h s' a : Good s -> (o < count s)%nat -> answers sqlClass contains s (Get o f) = a -> a <> Nil ->
    runs sqlClass contains (leaves o f) (fst (perform s (Get o f))) h s' ->
    answers sqlClass contains s' (Get o f) = a.
  Proof.
    intros HG Ho Ha Hnil R. destruct (steady_Good s (Get o f) HG I Ho) as [G1 _].
    destruct HG as (H & HS & HF). unfold answers in Ha. cbn [SqlIdentModel.perform] in *.
    destruct (get_spec s o f H Ho) as (s1 & b & E & H1 & X1 & S1 & C1 & R1 & B1). rewrite E in *. cbn [fst snd] in *. subst b.
    destruct (Z.eqb_spec (sid s o) 0) as [|Hn]; [congruence|].
    assert (Hs : sid s1 o = sid s o) by (apply X1; auto). pose proof (E_count _ _ X1).
    destruct (runs_keep o f s1 h s' R G1) as (G2 & A & B & C & D); [lia | congruence |].
    apply get_known; auto; [congruence|]. rewrite B, C, Hs. unfold cellAt in *. rewrite C1.
    destruct (match cells s (sid s o) with Some m => m f | None => None end) as [[j|q]|]; cbn in *; auto.
    destruct B1 as (x & -> & Hx). exists x. auto.
  Qed.

  Lemma set_then s o f v need h s' a : Good s -> (o < count s)%nat -> (forall r, v = Some r -> (r < count s)%nat) ->
    (forall r, v = Some r -> contains f = false -> registered s r) ->
    runs sqlClass contains (leaves o f) (fst (perform s (Set_ o f v need))) h s' ->
    a = match v with Some r => Object r | None => Nil end ->
    answers sqlClass contains s' (Get o f) = a.
  Proof.
    intros HG Ho Hv Hc R ->.
    destruct (steady_Good s (Set_ o f v need) HG I) as [G1 _].
    { cbn. split; auto. destruct v; auto. }
    destruct HG as (H & HS & HF). cbn [SqlIdentModel.perform] in *.
    destruct (set_spec s o f v need H Ho Hv) as [(s1 & E & _ & _ & N)|(s1 & x & b & E & Na & H1 & X1 & Hq & _ & He & _ & Hg)]; [tauto|].
    rewrite E in *. cbn [fst] in *. destruct (Hg HS HF) as [S1 F1]. pose proof (E_count _ _ X1).
    destruct (runs_keep o f _ h s' R G1) as (G2 & A & B & C & D); [cbn; lia | exact Hq |].
    change (sid (updateCell s1 (sid s1 o) f x) o) with (sid s1 o) in *.
    apply get_known; auto; [congruence|]. rewrite B, C.
    assert (Ex : cellAt (updateCell s1 (sid s1 o) f x) (sid s1 o) f = x).
    { unfold cellAt. cbn. rewrite Z.eqb_refl.
      assert (K : cells s1 (sid s1 o) <> None). { apply F1. rewrite (W_sid _ H1); auto; [discriminate|lia]. }
      destruct (cells s1 (sid s1 o)); [|congruence]. unfold put. rewrite Nat.eqb_refl. reflexivity. }
    rewrite Ex. destruct v as [r|]; cbn in He.
    - assert (Hr : (r < count s1)%nat). { specialize (Hv r eq_refl). lia. }
      assert (Hx : sid s1 r <> 0 /\ x = Some (CId (sid s1 r))).
      { destruct (contains f) eqn:F; auto. destruct (Hc r eq_refl eq_refl) as [i Hi].
        apply X1 in Hi. destruct (W_by _ H1 _ _ Hi) as (_ & P & Q). apply (W_rows _ H1) in Q.
        assert (sid s1 r <> 0) by lia. rewrite (proj2 (Z.eqb_neq _ _) H2) in He. auto. }
      destruct Hx as [Hx ->]. exists r. split; auto. apply D. cbn. apply S1; auto.
    - subst x. reflexivity.
  Qed.

  (** *** Roots after calls *)
  Lemma objects_filter s o l L : W s -> S_ s -> (o < count s)%nat -> sid s o <> 0 -> objects_of s l L ->
    objects_of s (filter (fun k => negb (k =? sid s o)) l) (filter (fun x => negb (Nat.eqb x o)) L).
  Proof.
    intros H HS Ho Hn. induction 1 as [|i x l L E F IH]; cbn; [constructor|].
    destruct (Z.eqb_spec i (sid s o)) as [->|N], (Nat.eqb_spec x o) as [->|N']; cbn; auto.
    - rewrite (HS o Ho Hn) in E. congruence.
    - destruct (W_by _ H _ _ E) as (_ & P & _). congruence.
    - constructor; auto.
  Qed.
  Lemma objects_absent s o l L : W s -> sid s o = 0 -> objects_of s l L -> filter (fun x => negb (Nat.eqb x o)) L = L.
  Proof.
    intros H Hz. induction 1 as [|i x l L E F IH]; cbn; auto. destruct (Nat.eqb_spec x o) as [->|]; cbn; [|congruence].
    destruct (W_by _ H _ _ E) as (_ & P & Q). apply (W_rows _ H) in Q. lia.
  Qed.

  Lemma roots_step s k L : Good s -> steady s k -> allowed s k -> objects_of s (roots s) L ->
    objects_of (fst (perform s k)) (roots (fst (perform s k))) (replay [k] L).
  Proof.
    intros (H & HS & HF) Hk Ha HO.
    assert (HX : forall s1, Ext s s1 -> objects_of s1 (roots s1) L).
    { intros s1 X. rewrite (E_roots _ _ X). eapply objects_of_Ext; eauto. }
    destruct k as [c v|c i|p g|p g v r|p|p| |t]; cbn [SqlIdentModel.perform fst snd allowed steady replay] in *; try contradiction.
    - apply HX, new_Ext; auto.
    - destruct (get_spec s p g H Ha) as (s1 & a & E & _ & X1 & _). rewrite E. apply HX; auto.
    - destruct Ha as [Hp Hv].
      destruct (set_spec s p g v r H Hp) as [(s1 & E & _ & X & _)|(s1 & x & a & E & Na & H1 & X1 & Hq & _)].
      { intros q ->. exact Hv. }
      + rewrite E. apply HX; auto.
      + rewrite E. cbn. apply (HX s1); auto.
    - destruct (addRoot_spec s p H Ha) as [(s1 & E & _ & X & N)|(s1 & E & H1 & X1 & Hn & _ & Hg)]; [tauto|].
      rewrite E. cbn. apply Forall2_app; [exact (objects_of_Ext _ _ _ _ X1 HO)|]. constructor; [|constructor].
      apply (Hg HS HF); auto. pose proof (E_count _ _ X1). lia.
    - destruct (removeRoot_spec s p H Ha) as (s1 & E & _ & X1 & Hs & _). rewrite (Hs HS) in *. rewrite E. cbn.
      destruct (Z.eqb_spec (sid s p) 0) as [Z0|N].
      + rewrite (objects_absent s p (roots s) L) by auto. exact HO.
      + apply (objects_filter s p); auto.
    - destruct (getRoots_spec s H) as (s1 & M & E & _ & X1 & _). rewrite E. apply HX; auto.
  Qed.
  Lemma replay_cons k h L : replay (k :: h) L = replay h (replay [k] L).
  Proof. destruct k; reflexivity. Qed.

  Lemma roots_runs s h s' L : runs sqlClass contains steady s h s' -> Good s -> objects_of s (roots s) L ->
    objects_of s' (roots s') (replay h L).
  Proof.
    intros R. revert L. induction R as [|s k l s1 s2 Hp Ha -> R IH]; intros L HG HO; auto.
    rewrite replay_cons. apply IH; [apply steady_Good; auto | apply roots_step; auto].
  Qed.

  Lemma roots_then s L h s' : Good s -> answers sqlClass contains s GetRoots = Roots L ->
    runs sqlClass contains steady (fst (perform s GetRoots)) h s' ->
    answers sqlClass contains s' GetRoots = Roots (replay h L).
  Proof.
    intros HG Ha R. destruct (steady_Good s GetRoots HG I I) as [G1 _]. unfold answers in *. cbn [SqlIdentModel.perform] in *.
    destruct (getRoots_spec s (proj1 HG)) as (s1 & M & E & H1 & X1 & S1 & C1 & R1 & O1). rewrite E in *. cbn [fst snd] in *.
    injection Ha as ->. pose proof (roots_runs s1 h s' L R G1 O1) as O2.
    unfold getRoots. rewrite (decodeRoots_known _ _ _ O2). reflexivity.
  Qed.

  (** *** Executions with UnRegister *)
  Lemma own_keeps s k i f : W s -> own s k -> allowed s k -> leaves_id i f s k -> rows s i <> None ->
    (forall o, (o < count s)%nat -> is_sql s o = false -> sid s o <> i) ->
    cellAt (fst (perform s k)) i f = cellAt s i f /\
    (forall j c, rows s j = Some c -> rows (fst (perform s k)) j = Some c).
  Proof.
    intros H Hk Ha [_ Hl] Hi Hp.
    assert (HX : forall s1, Ext s s1 -> cellAt s1 i f = cellAt s i f /\ (forall j c, rows s j = Some c -> rows s1 j = Some c)).
    { intros s1 X. split; [|apply X]. unfold cellAt. rewrite (E_cells _ _ X); auto. }
    destruct k as [c v|c n|p g|p g v r|p|p| |t]; cbn [SqlIdentModel.perform fst snd allowed own] in *; try contradiction.
    - apply HX, new_Ext; auto.
    - destruct (get_spec s p g H Ha) as (s1 & a & E & _ & X1 & _). rewrite E. apply HX; auto.
    - destruct Ha as [Ho Hv].
      destruct (set_spec s p g v r H Ho) as [(s1 & E & _ & X & _)|(s1 & x & a & E & Na & H1 & X1 & Hq & Hz & _)].
      { intros q ->. exact Hv. }
      + rewrite E. apply HX; auto.
      + rewrite E. cbn [fst]. destruct (HX _ X1) as (A & B). split; [|exact B].
        unfold cellAt in *. cbn. destruct (Z.eqb_spec i (sid s1 p)) as [->|]; auto.
        destruct (Z.eq_dec (sid s p) 0) as [Z0|N]; [exfalso; auto|].
        assert (Es : sid s1 p = sid s p) by (apply X1; auto).
        assert (is_sql s p = true) as Q.
        { destruct (is_sql s p) eqn:Q; auto. exfalso. apply (Hp p Ho Q). congruence. }
        assert (sqlid s p = sid s p) as Q'. { unfold sid. rewrite Q. reflexivity. }
        destruct Hl as [Hl|Hl]; [congruence|]. destruct (cells s1 (sid s1 p)); auto. unfold put.
        destruct (Nat.eqb_spec f g); [congruence|auto].
    - destruct (addRoot_spec s p H Ha) as [(s1 & E & _ & X & _)|(s1 & E & H1 & X1 & _)]; rewrite E; [apply HX; auto|].
      cbn [fst]. apply (HX _ X1).
    - destruct (removeRoot_spec s p H Ha) as (s1 & E & _ & X1 & _). rewrite E. cbn [fst].
      destruct (sid s p =? 0); apply (HX _ X1).
    - destruct (getRoots_spec s H) as (s1 & L & E & _ & X1 & _). rewrite E. apply HX; auto.
    - unfold unRegister, cellAt. destruct (fold_clear_frame (postOrder t) s) as (_ & _ & _ & A & B & _).
      rewrite A, B. auto.
  Qed.

  (** the class of a row tells whether its objects are SQLObjects *)
  Lemma row_sql s i c : W s -> rows s i = Some c -> sqlClass c = true ->
    forall o, (o < count s)%nat -> is_sql s o = false -> sid s o <> i.
  Proof.
    intros H R C o Ho Q <-. apply (W_rows _ H) in R as Hi. rewrite (W_sid _ H) in R by (auto; lia).
    injection R as <-. unfold SqlIdentModel.is_sql in Q. congruence.
  Qed.

  Lemma runs_keep_id i f c s h s' : runs sqlClass contains (leaves_id i f) s h s' -> W s -> rows s i = Some c ->
    sqlClass c = true -> W s' /\ cellAt s' i f = cellAt s i f /\ (forall j c, rows s j = Some c -> rows s' j = Some c).
  Proof.
    intros R. induction R as [|s k l s1 s2 Hp Ha -> R IH]; intros H Hi Hc; [auto|].
    destruct (own_keeps s k i f H (proj1 Hp) Ha Hp) as [A B]; [congruence | eapply row_sql; eauto |].
    destruct IH as (P & Q & T); auto. { apply own_W; auto. apply Hp. }
    split; auto. split; [congruence|]. auto.
  Qed.

  Lemma get_then_id s o f r h s2 o2 : W s -> (o < count s)%nat -> is_sql s o = true ->
    answers sqlClass contains s (Get o f) = Object r ->
    let s1 := fst (perform s (Get o f)) in
    is_sql s1 r = true ->
    runs sqlClass contains (leaves_id (sqlid s1 o) f) s1 h s2 ->
    (o2 < count s2)%nat -> is_sql s2 o2 = true -> sqlid s2 o2 = sqlid s1 o ->
    exists r2, answers sqlClass contains s2 (Get o2 f) = Object r2 /\
      sqlid (fst (perform s2 (Get o2 f))) r2 = sqlid s1 r.
  Proof.
    intros H Ho Hq Ha s1 Hr R Ho2 Hq2 He. unfold answers in *. subst s1. cbn [SqlIdentModel.perform] in *.
    destruct (get_spec s o f H Ho) as (s1 & a & E & H1 & X1 & _ & C1 & R1 & B1). rewrite E in *. cbn [fst snd] in *. subst a.
    destruct (Z.eqb_spec (sid s o) 0) as [|Hn]; [congruence|]. pose proof (E_count _ _ X1) as Hc.
    assert (Q1 : is_sql s1 o = true). { unfold SqlIdentModel.is_sql in *. rewrite (E_class _ _ X1); auto. }
    assert (D1 : sid s1 o = sid s o) by (apply X1; auto).
    assert (I1 : sqlid s1 o = sid s o). { rewrite <- D1. unfold sid. rewrite Q1. reflexivity. }
    rewrite I1 in *.
    assert (Rw : rows s1 (sid s o) = Some (class_of s1 o)). { rewrite <- D1. apply (W_sid _ H1); [lia | congruence]. }
    destruct (runs_keep_id _ _ _ _ _ _ R H1 Rw Q1) as (H2 & C2 & R2).
    destruct (get_spec s2 o2 f H2 Ho2) as (s3 & b & E3 & H3 & X3 & _ & C3 & R3 & B3). rewrite E3. cbn [fst snd].
    assert (D2 : sid s2 o2 = sid s o). { unfold sid at 1. rewrite Hq2. exact He. }
    rewrite D2 in B3. rewrite (proj2 (Z.eqb_neq _ _) Hn) in B3. rewrite C2 in B3.
    unfold cellAt in *. rewrite C1 in B3.
    destruct (match cells s (sid s o) with Some m => m f | None => None end) as [[j|q]|]; cbn in B1; try discriminate.
    destruct B1 as (x & [= <-] & Hx). destruct B3 as (r2 & -> & Hr2). exists r2. split; auto.
    destruct (W_by _ H1 _ _ Hx) as (P1 & P2 & P3). destruct (W_by _ H3 _ _ Hr2) as (T1 & T2 & T3).
    assert (class_of s3 r2 = class_of s1 r) as K.
    { apply R2 in P3. apply X3 in P3. congruence. }
    unfold sid in P2, T2. unfold SqlIdentModel.is_sql in *. rewrite K in T2. rewrite Hr in *. congruence.
  Qed.

  (** *** Reading after UnRegister *)
  Lemma clear_all_sid l : forall s o, ~ In o l -> sid (fold_left clearObjectID l s) o = sid s o.
  Proof.
    induction l as [|x l IH]; intros s o Hn; cbn [fold_left]; auto. rewrite IH by (intros Q; apply Hn; right; auto).
    rewrite clear_sid. destruct (Nat.eqb_spec o x) as [->|]; auto. exfalso. apply Hn. left. reflexivity.
  Qed.
  Lemma Good_U s : Good s -> U s.
  Proof. intros (_ & HS & _) o x Ho Hn E. rewrite (HS o Ho Hn) in E. congruence. Qed.

  Lemma registered_exact s t : Good s -> allowed s (UnRegister t) -> forall o,
    registered (fst (perform s (UnRegister t))) o <-> registered s o /\ ~ In o (postOrder t).
  Proof.
    intros HG Ha o. cbn. unfold registered, unRegister.
    assert (E : forall i, byID (fold_left clearObjectID (postOrder t) s) i = Some o <-> byID s i = Some o /\ ~ In o (postOrder t)).
    { intros i. apply clear_exact; [apply HG | apply Good_U; auto | intros q Hq; apply Ha, postOrder_within, Hq]. }
    split; [intros [i Hi]; apply E in Hi; destruct Hi; eauto | intros [[i Hi] N]; exists i; apply E; auto].
  Qed.

  Lemma unregister_get s o f r t : Good s -> (o < count s)%nat -> answers sqlClass contains s (Get o f) = Object r ->
    let s1 := fst (perform s (Get o f)) in
    allowed s1 (UnRegister t) -> ~ In o (postOrder t) ->
    answers sqlClass contains (fst (perform s1 (UnRegister t))) (Get o f) =
      Object (if in_dec Nat.eq_dec r (postOrder t) then count s1 else r).
  Proof.
    intros HG Ho Ha s1 Hal Hno. subst s1. destruct (steady_Good s (Get o f) HG I Ho) as [G1 _].
    destruct HG as (H & HS & HF). unfold answers in *. cbn [SqlIdentModel.perform] in *.
    destruct (get_spec s o f H Ho) as (s1 & b & E & H1 & X1 & S1 & C1 & R1 & B1). rewrite E in *. cbn [fst snd] in *. subst b.
    destruct (Z.eqb_spec (sid s o) 0) as [|Hn]; [congruence|].
    assert (Hs : sid s1 o = sid s o) by (apply X1; auto). pose proof (E_count _ _ X1) as Hc.
    assert (Hc1 : cellAt s1 (sid s o) f = cellAt s (sid s o) f) by (unfold cellAt; rewrite C1; reflexivity).
    set (s2 := unRegister sqlClass s1 t) in *.
    assert (Hal' : forall q, In q (postOrder t) -> (q < count s1)%nat) by (intros q Hq; apply Hal, postOrder_within, Hq).
    assert (H2 : W s2) by (apply clear_all_W; auto).
    assert (EX : forall i x, byID s2 i = Some x <-> byID s1 i = Some x /\ ~ In x (postOrder t)).
    { apply clear_exact; auto. apply Good_U; auto. }
    destruct (fold_clear_frame (postOrder t) s1) as (F1 & F2 & F3 & F4 & F5 & F6). change (fold_left _ _ s1) with s2 in *.
    assert (D2 : sid s2 o = sid s o). { rewrite <- Hs. apply clear_all_sid. exact Hno. }
    assert (B2 : byID s2 (sid s o) = Some o).
    { apply EX. split; auto. rewrite <- Hs. apply G1; [lia | congruence]. }
    unfold get, SqlIdentModel.getSQLID. rewrite getObjectID_eq by (auto; lia). rewrite D2, B2. cbn [fst snd].
    unfold getValue. fold (cellAt s2 (sid s o) f).
    replace (cellAt s2 (sid s o) f) with (cellAt s (sid s o) f) by (unfold cellAt; rewrite F5, C1; reflexivity).
    destruct (cellAt s (sid s o) f) as [[j|q]|]; cbn in B1; try discriminate.
    destruct B1 as (x & [= <-] & Hx). cbn [decodeCell]. unfold SqlIdentModel.decodeObject.
    destruct (in_dec Nat.eq_dec r (postOrder t)) as [Hr|Hr].
    - destruct (byID s2 j) as [y|] eqn:E2. { apply EX in E2. destruct E2 as [E2 N]. congruence. }
      destruct (W_by _ H1 _ _ Hx) as (_ & _ & Hrow). rewrite F4, Hrow. cbn. congruence.
    - rewrite (proj2 (EX j r)); auto.
  Qed.

  (** *** What Set answers *)
  Lemma set_answer s o f v : Good s -> allowed s (Set_ o f v true) -> registered s o ->
    answers sqlClass contains s (Set_ o f v true) = answers sqlClass contains s (Get o f).
  Proof.
    intros HG Ha [i Hi]. destruct (steady_Good s (Set_ o f v true) HG I Ha) as [_ Hn]. revert Hn.
    unfold answers. cbn [SqlIdentModel.perform]. unfold set, get, SqlIdentModel.encodeSQLID, SqlIdentModel.getSQLID.
    destruct (W_by _ (proj1 HG) _ _ Hi) as (Ho & <- & _). rewrite getObjectID_eq by (auto; apply HG). rewrite Hi.
    destruct (getValue sqlClass s (sid s o) f) as [s2 old]. cbn [snd].
    destruct old; try (destruct (encodeValue sqlClass contains s2 f v) as [s3 [x|]]; cbn [snd]; intros Q; try (exfalso; apply Q; reflexivity)); reflexivity.
  Qed.
  Lemma set_quiet s o f v : Good s -> allowed s (Set_ o f v false) ->
    answers sqlClass contains s (Set_ o f v false) = Nothing.
  Proof.
    intros HG Ha. destruct (steady_Good s (Set_ o f v false) HG I Ha) as [_ Hn]. revert Hn.
    unfold answers. cbn [SqlIdentModel.perform]. unfold set.
    destruct (encodeSQLID s o) as [s1 [i|]]; [|cbn; congruence].
    destruct (encodeValue sqlClass contains s1 f v) as [s3 [x|]]; cbn; congruence.
  Qed.
End Proofs.
