(** Proofs about the single-valued attributes and the containers of a SQL store. *)
From Coq Require Import String.
From Verif Require Import Base Chars StrconvModel TimeModel FloatModel LiteralModel LiteralSpec SqlSchemaModel SqlValueModel SqlValueSpec SqlValueProofs SqlCellModel SqlCellSpec.
Local Open Scope list_scope.
Local Open Scope Z_scope.

Lemma nat_in_spec f l : nat_in f l = true <-> In f l.
Proof.
  unfold nat_in. rewrite existsb_exists. split.
  - intros (x & Hx & E). apply Nat.eqb_eq in E. now subst.
  - intro H. exists f. split; [exact H|apply Nat.eqb_refl].
Qed.
Lemma index_from_nth l f : In f l -> forall i, 0 <= i -> i <= index_from i l f /\ nth_error l (Z.to_nat (index_from i l f - i)) = Some f.
Proof.
  induction l as [|x l IH]; [intros []|]. intros H i Hi. cbn [index_from].
  destruct (Nat.eqb x f) eqn:E.
  - apply Nat.eqb_eq in E. subst. split; [lia|]. now rewrite Z.sub_diag.
  - destruct H as [H|H]; [subst; rewrite Nat.eqb_refl in E; discriminate|].
    destruct (IH H (i + 1) ltac:(lia)) as [L N]. split; [lia|].
    replace (Z.to_nat (index_from (i + 1) l f - i)) with (S (Z.to_nat (index_from (i + 1) l f - (i + 1)))) by lia. exact N.
Qed.
Lemma feature_of_id M c f : In f (features M c) -> getFeature M c (getFeatureID M c f) = Some f.
Proof.
  intro H. unfold getFeature, getFeatureID. destruct (index_from_nth _ _ H 0 ltac:(lia)) as [L N].
  destruct (Z.ltb_spec (index_from 0 (features M c) f) 0); [lia|]. now rewrite Z.sub_0_r in N.
Qed.
Lemma index_prefix l l' f : In f l -> forall i, index_from i (l ++ l') f = index_from i l f.
Proof.
  induction l as [|x l IH]; [intros []|]. intros H i. cbn. destruct (Nat.eqb x f) eqn:E; [reflexivity|].
  destruct H as [->|H]; [rewrite Nat.eqb_refl in E; discriminate|]. now apply IH.
Qed.

Section Store.
  Context (M : meta) (class_of : nat -> nat).
  Context (sprint : gval -> str) (convert_sql : str -> sql -> sql).
  Hypothesis HM : proper M.
  Local Notation encodeSQLID := (encodeSQLID M class_of).
  Local Notation decl := (declared M class_of).
  Local Notation cons_ := (consistent (literals M)).

  (** what the value of an attribute reads *)
  Definition shown (f : nat) (w : option gval) : gval := match w with Some v => v | None => never_set M f end.
  Definition reads (f : nat) (t : list enum_row) (x : sql) (v : gval) : Prop :=
    let a := attribute M f in
    forall m2 t2, cons_ m2 t2 -> extends t t2 ->
      decodeFeatureValue (literals M) (acreate a) (adefault a) (akind a) m2 t2 (decodeAny x) = Done v.

  Record inv (d : db) (V : nat -> nat -> option gval) (C : nat -> option (nat * nat)) (T : nat -> Prop) : Prop := mkInv {
    i_enums : cons_ (known d) (enums d);
    i_next : 1 <= nextID d;
    i_range : forall o i, sid d o = Some i -> 1 <= i < nextID d;
    i_inj : forall o o' i, sid d o = Some i -> sid d o' = Some i -> o = o';
    i_touched : forall o, T o <-> sid d o <> None;
    i_none : forall o, sid d o = None -> C o = None /\ forall f, V o f = None;
    i_cell : forall o i f, sid d o = Some i -> decl o f ->
      exists x, cells d i f = Some x /\ reads f (enums d) x (shown f (V o f)) /\
        match V o f with Some v => database_kind (akind (attribute M f)) -> decodeAny x = v | None => x = SNull end;
    i_row : forall o i, sid d o = Some i ->
      match C o with
      | Some (c, f) => exists k, sid d c = Some k /\ rows d i = Some (mkO (class_of o) (Some k) (Some (getFeatureID M (class_of c) f)))
      | None => rows d i = Some (mkO (class_of o) None None)
      end }.

  Lemma null_reads f t : reads f t SNull (never_set M f).
  Proof.
    intros m2 t2 _ _. exact (proj2 (null_decodes (literals M) (acreate (attribute M f)) (aconvert (attribute M f)) (aen (attribute M f))
      (adefault (attribute M f)) (fun _ => []) (fun _ x => x) (akind (attribute M f)) m2 t2)).
  Qed.
  Lemma extends_trans t u v : extends t u -> extends u v -> extends t v.
  Proof. intros [a ->] [b ->]. exists (a ++ b). now rewrite app_assoc. Qed.
  Lemma reads_later f t u x v : reads f t x v -> extends t u -> reads f u x v.
  Proof. intros H E m2 t2 C2 E2. apply H; [exact C2|exact (extends_trans _ _ _ E E2)]. Qed.

  Lemma inv_fresh : inv fresh (fun _ _ => None) (fun _ => None) (fun _ => False).
  Proof.
    constructor; cbn; try discriminate; try lia.
    - split; [intros ? ? ? []|constructor].
    - intro o. split; [intros []|intro H; now apply H].
    - intros o _. split; [reflexivity|]. intro f. reflexivity.
  Qed.

  Lemma encodeSQLID_inv d V C T o d1 i : inv d V C T -> encodeSQLID d o = (d1, i) ->
    inv d1 V C (fun x => T x \/ x = o) /\ sid d1 o = Some i /\ (forall x k, sid d x = Some k -> sid d1 x = Some k).
  Proof using HM.
    intros I. unfold SqlCellModel.encodeSQLID. destruct (sid d o) as [j|] eqn:E; intro H.
    - injection H as <- <-. split; [|split; [exact E|auto]]. destruct I. constructor; auto.
      intro x. split; [intros [H|H]; [now apply i_touched0|subst; congruence]|intro H; left; now apply i_touched0].
    - unfold encodeObject in H. injection H as <- <-. destruct I. destruct (i_none0 o E) as [Co Vo].
      assert (Other : forall x k, sid d x = Some k -> Nat.eqb x o = false /\ (k =? nextID d) = false).
      { intros x k Hx. split.
        - apply Nat.eqb_neq. intro. subst. congruence.
        - specialize (i_range0 x k Hx). lia. }
      split; [|split].
      + constructor; cbn.
        * exact i_enums0.
        * lia.
        * intros x k. destruct (Nat.eqb x o); intro Hx; [injection Hx as <-; lia|specialize (i_range0 x k Hx); lia].
        * intros x y k. destruct (Nat.eqb_spec x o), (Nat.eqb_spec y o); intros Hx Hy.
          -- congruence.
          -- injection Hx as <-. specialize (i_range0 y _ Hy). lia.
          -- injection Hy as <-. specialize (i_range0 x _ Hx). lia.
          -- exact (i_inj0 x y k Hx Hy).
        * intro x. destruct (Nat.eqb_spec x o) as [->|N].
          -- split; [discriminate|intros _; right; reflexivity].
          -- split; [intros [H|H]; [now apply i_touched0|contradiction]|intro H; left; now apply i_touched0].
        * intros x. destruct (Nat.eqb x o); [discriminate|]. apply i_none0.
        * intros x k f. destruct (Nat.eqb_spec x o) as [->|N]; intros Hx D.
          -- injection Hx as <-. rewrite Z.eqb_refl. cbn [andb]. rewrite (Vo f). cbn [shown].
             exists SNull. split; [|split; [apply null_reads|reflexivity]].
             replace (existsb _ _) with true; [reflexivity|]. symmetry. apply existsb_exists.
             exists (class_of o). split; [apply HM|]. apply nat_in_spec, D.
          -- destruct (Other x k Hx) as [_ ->]. cbn [andb]. exact (i_cell0 x k f Hx D).
        * intros x k. destruct (Nat.eqb_spec x o) as [->|N]; intros Hx.
          -- injection Hx as <-. rewrite Co, Z.eqb_refl. reflexivity.
          -- destruct (Other x k Hx) as [_ ->]. specialize (i_row0 x k Hx). destruct (C x) as [[c f]|]; [|exact i_row0].
             destruct i_row0 as (n & Hc & R). exists n. destruct (Other c n Hc) as [-> _]. auto.
      + cbn. now rewrite Nat.eqb_refl.
      + intros x k Hx. cbn. now destruct (Other x k Hx) as [-> _].
  Qed.

  Lemma set_inv d V C T o f v r : inv d V C T -> decl o f -> holdable M f v ->
    exists d', set M class_of sprint convert_sql d o f v r = Done d' /\
      inv d' (fun x g => if Nat.eqb o x && Nat.eqb f g then Some v else V x g) C (fun x => T x \/ x = o).
  Proof using HM.
    intros I D Hv. unfold set. destruct (encodeSQLID d o) as [d1 i] eqn:E.
    destruct (encodeSQLID_inv _ _ _ _ _ _ _ I E) as (I1 & Ho & _). destruct I1.
    unfold getFeatureSchema. replace (nat_in f (own M (class_of o))) with true by (symmetry; now apply nat_in_spec).
    set (a := attribute M f) in *. destruct (i_cell0 o i f Ho D) as (x0 & Cx & Rx & _).
    assert (G : exists w, (if r then getValue M d1 i f a else Done VNil) = Done w).
    { destruct r; [|eexists; reflexivity]. exists (shown f (V o f)). unfold getValue, select. rewrite Cx.
      apply Rx; [exact i_enums0|apply extends_refl]. }
    destruct G as [w ->].
    destruct (storable_round_trip (literals M) (acreate a) (aconvert a) (aen a) (adefault a) sprint convert_sql (akind a) v Hv
      _ _ i_enums0) as (x & m & t & Ex & Cm & Et & Dx).
    rewrite Ex. eexists. split; [reflexivity|]. constructor; cbn; auto.
    - intros o' H'. destruct (i_none0 o' H') as [C' V']. split; [exact C'|]. intro g.
      destruct (Nat.eqb_spec o o') as [<-|N]; [congruence|apply V'].
    - intros o' k g Hk D'. destruct (Nat.eqb_spec o o') as [<-|N].
      + rewrite Ho in Hk. injection Hk as <-. rewrite Z.eqb_refl. cbn [andb].
        destruct (Nat.eqb_spec f g) as [<-|Ng].
        * rewrite Nat.eqb_refl, Cx. eexists. split; [reflexivity|]. cbn [shown]. split.
          -- exact Dx.
          -- intro Kd. clear - Ex Kd Hv. unfold holdable in Hv. fold a in Hv, Kd. destruct Hv as (Nv & Hv).
             destruct Kd as [K|[K|K]]; unfold stored; rewrite K in *; destruct Hv as (ty & Ty & Of & Rest);
               injection Ty as <-; destruct v; try solve [cbn in Of; intuition discriminate]; try discriminate; try contradiction;
               cbn in Ex; injection Ex as <- <- <-; cbn; try reflexivity.
             destruct Rest as [R1 R2]. unfold bind_float. match goal with |- context [match ?g with _ => _ end] => is_var g; destruct g as [[]| | |] end; try reflexivity; congruence.
        * replace (Nat.eqb g f) with false by (symmetry; apply Nat.eqb_neq; congruence).
          destruct (i_cell0 o i g Ho D') as (y & Cy & Ry & Dy). exists y. split; [exact Cy|]. split; [|exact Dy].
          exact (reads_later _ _ _ _ _ Ry Et).
      + cbn [andb]. replace (k =? i) with false by (symmetry; apply Z.eqb_neq; intro; subst; apply N; exact (i_inj0 _ _ _ Ho Hk)).
        cbn [andb]. destruct (i_cell0 o' k g Hk D') as (y & Cy & Ry & Dy). exists y. split; [exact Cy|]. split; [|exact Dy].
        exact (reads_later _ _ _ _ _ Ry Et).
  Qed.

  Lemma unSet_inv d V C T o f : inv d V C T -> decl o f -> as_is (akind (attribute M f)) -> holdable M f (adefault (attribute M f)) ->
    inv (unSet M class_of sprint convert_sql d o f)
      (fun x g => if Nat.eqb o x && Nat.eqb f g then Some (adefault (attribute M g)) else V x g) C (fun x => T x \/ x = o).
  Proof using HM.
    intros I D K Hv. unfold unSet. destruct (encodeSQLID d o) as [d1 i] eqn:E.
    destruct (encodeSQLID_inv _ _ _ _ _ _ _ I E) as (I1 & Ho & _). destruct I1.
    unfold getFeatureSchema. replace (nat_in f (own M (class_of o))) with true by (symmetry; now apply nat_in_spec).
    set (a := attribute M f) in *. destruct (i_cell0 o i f Ho D) as (x0 & Cx & Rx & _).
    destruct (storable_round_trip (literals M) (acreate a) (aconvert a) (aen a) (adefault a) sprint convert_sql (akind a) (adefault a) Hv
      _ _ i_enums0) as (x & m & t & Ex & Cm & Et & Dx).
    assert (Ax : x = adefault a /\ t = enums d1).
    { destruct Hv as [Nv _]. fold a in Nv. clear - Ex K Nv. revert Ex. generalize (adefault a), Nv. intros v N Ex.
      destruct (akind a); try contradiction; destruct v; try congruence; cbn in Ex; injection Ex as <- <- <-; auto. }
    destruct Ax as [-> ->]. constructor; cbn; auto.
    - intros o' H'. destruct (i_none0 o' H') as [C' V']. split; [exact C'|]. intro g.
      destruct (Nat.eqb_spec o o') as [<-|N]; [congruence|apply V'].
    - intros o' k g Hk D'. destruct (Nat.eqb_spec o o') as [<-|N].
      + rewrite Ho in Hk. injection Hk as <-. rewrite Z.eqb_refl. cbn [andb].
        destruct (Nat.eqb_spec f g) as [<-|Ng].
        * rewrite Nat.eqb_refl, Cx. eexists. split; [reflexivity|]. cbn [shown]. split.
          -- exact Dx.
          -- fold a. intro Kd. clear - Kd Hv. unfold holdable in Hv. fold a in Hv. destruct Hv as (Nv & Hv). fold a in Nv. unfold stored.
             revert Nv Hv. generalize (adefault a). intros v Nv Hv.
             destruct Kd as [K|[K|K]]; rewrite K in *; destruct Hv as (ty & Ty & Of & Rest);
               injection Ty as <-; destruct v; try solve [cbn in Of; intuition discriminate]; try discriminate; try contradiction;
               cbn; try reflexivity.
             destruct Rest as [R1 R2]. unfold bind_float. match goal with |- context [match ?g with _ => _ end] => is_var g; destruct g as [[]| | |] end; try reflexivity; congruence.
        * replace (Nat.eqb g f) with false by (symmetry; apply Nat.eqb_neq; congruence).
          exact (i_cell0 o i g Ho D').
      + cbn [andb]. replace (k =? i) with false by (symmetry; apply Z.eqb_neq; intro; subst; apply N; exact (i_inj0 _ _ _ Ho Hk)).
        exact (i_cell0 o' k g Hk D').
  Qed.

  Lemma setContainer_inv d V C T o c f : inv d V C T ->
    inv (setContainer M class_of d o c f) V (fun x => if Nat.eqb o x then Some (c, f) else C x) (fun x => T x \/ x = o \/ x = c).
  Proof using HM.
    intros I. unfold setContainer. destruct (encodeSQLID d o) as [d1 i] eqn:E.
    destruct (encodeSQLID_inv _ _ _ _ _ _ _ I E) as (I1 & Ho & _).
    destruct (encodeSQLID d1 c) as [d2 k] eqn:E2.
    destruct (encodeSQLID_inv _ _ _ _ _ _ _ I1 E2) as (I2 & Hc & Keep). apply Keep in Ho. destruct I2.
    constructor; cbn; auto.
    - intro x. rewrite <- (i_touched0 x). tauto.
    - intros x Hx. destruct (i_none0 x Hx) as [Cx Vx]. split; [|exact Vx].
      destruct (Nat.eqb_spec o x) as [<-|N]; [congruence|exact Cx].
    - intros x n Hn. specialize (i_row0 x n Hn). destruct (Nat.eqb_spec o x) as [<-|N].
      + rewrite Ho in Hn. injection Hn as <-. exists k. split; [exact Hc|].
        destruct (C o) as [[c' f']|].
        * destruct i_row0 as (n & _ & ->). now rewrite Z.eqb_refl.
        * rewrite i_row0, Z.eqb_refl. reflexivity.
      + assert (Ni : (n =? i) = false) by (apply Z.eqb_neq; intro; subst; apply N; exact (i_inj0 _ _ _ Ho Hn)).
        destruct (C x) as [[c' f']|].
        * destruct i_row0 as (n' & Hc' & ->). exists n'. split; [exact Hc'|]. now rewrite Ni.
        * now rewrite i_row0, Ni.
  Qed.

  (** runs *)
  Lemma inv_ext d V C T V' C' T' : inv d V C T -> (forall x g, V x g = V' x g) -> (forall x, C x = C' x) -> (forall x, T x <-> T' x) ->
    inv d V' C' T'.
  Proof.
    intros I EV EC ET. destruct I. constructor; auto.
    - intro o. rewrite <- ET. apply i_touched0.
    - intros o H. rewrite <- EC. destruct (i_none0 o H) as [A B]. split; [exact A|]. intro f. now rewrite <- EV.
    - intros o i f H D. rewrite <- EV. exact (i_cell0 o i f H D).
    - intros o i H. rewrite <- EC. exact (i_row0 o i H).
  Qed.
  Lemma run_inv ks : forall d V C (T : nat -> Prop), inv d V C T -> Forall (regular M class_of) ks ->
    exists d', performAll M class_of sprint convert_sql d ks = Done d' /\
      inv d' (fun o f => last_value M ks o f (V o f)) (fun o => last_container ks o (C o)) (fun o => T o \/ touched ks o).
  Proof using HM.
    induction ks as [|k ks IH]; intros d V C T I R.
    - exists d. split; [reflexivity|]. apply (inv_ext _ _ _ _ _ _ _ I); auto.
      intro x. split; [auto|]. intros [H|(k & [] & _)]. exact H.
    - inversion R as [|? ? Rk Rks]; subst. destruct k as [o f v r|o f|o c f]; cbn [performAll perform].
      + destruct Rk as [D Hv]. destruct (set_inv d V C T o f v r I D Hv) as (d1 & -> & I1).
        destruct (IH d1 _ _ _ I1 Rks) as (d' & E & I'). exists d'. split; [exact E|].
        apply (inv_ext _ _ _ _ _ _ _ I'); [reflexivity|reflexivity|].
        intro x. split.
        * intros [[H|H]|(k & Hk & Ck)]; [auto|right; exists (Set_ o f v r); subst; cbn; auto|right; exists k; cbn; auto].
        * intros [H|(k & [<-|Hk] & Ck)]; [auto|cbn in Ck; subst; auto|right; exists k; auto].
      + destruct Rk as (D & K & Hv). pose proof (unSet_inv d V C T o f I D K Hv) as I1.
        destruct (IH _ _ _ _ I1 Rks) as (d' & E & I'). exists d'. split; [exact E|].
        apply (inv_ext _ _ _ _ _ _ _ I'); [reflexivity|reflexivity|].
        intro x. split.
        * intros [[H|H]|(k & Hk & Ck)]; [auto|right; exists (UnSet_ o f); subst; cbn; auto|right; exists k; cbn; auto].
        * intros [H|(k & [<-|Hk] & Ck)]; [auto|cbn in Ck; subst; auto|right; exists k; auto].
      + pose proof (setContainer_inv d V C T o c f I) as I1.
        destruct (IH _ _ _ _ I1 Rks) as (d' & E & I'). exists d'. split; [exact E|].
        apply (inv_ext _ _ _ _ _ _ _ I'); [reflexivity|reflexivity|].
        intro x. split.
        * intros [[H|H]|(k & Hk & Ck)]; [auto|right; exists (SetContainer_ o c f); cbn; intuition|right; exists k; cbn; auto].
        * intros [H|(k & [<-|Hk] & Ck)]; [auto|cbn in Ck; left; intuition|right; exists k; auto].
  Qed.

  Lemma run_fresh ks : Forall (regular M class_of) ks ->
    exists d, performAll M class_of sprint convert_sql fresh ks = Done d /\
      inv d (fun o f => last_value M ks o f None) (fun o => last_container ks o None) (fun o => touched ks o).
  Proof using HM.
    intro R. destruct (run_inv ks _ _ _ _ inv_fresh R) as (d & E & I). exists d. split; [exact E|].
    apply (inv_ext _ _ _ _ _ _ _ I); auto. intro x. tauto.
  Qed.

  Lemma get_after ks : Forall (regular M class_of) ks ->
    exists d, performAll M class_of sprint convert_sql fresh ks = Done d /\
    forall o f, decl o f ->
      (touched ks o -> get M class_of d o f = Done (Value (match last_value M ks o f None with Some v => v | None => never_set M f end))) /\
      (~ touched ks o -> get M class_of d o f = Done (Value VNil)).
  Proof using HM.
    intro R. destruct (run_fresh ks R) as (d & E & I). exists d. split; [exact E|]. intros o f D. destruct I. split; intro H.
    - apply i_touched0 in H. unfold get. destruct (sid d o) as [i|] eqn:Ei; [|congruence].
      unfold getFeatureSchema. replace (nat_in f (own M (class_of o))) with true by (symmetry; now apply nat_in_spec).
      destruct (i_cell0 o i f Ei D) as (x & Cx & Rx & _). unfold getValue, select. rewrite Cx.
      rewrite (Rx _ _ i_enums0 (extends_refl _)). reflexivity.
    - unfold get. destruct (sid d o) as [i|] eqn:Ei; [|reflexivity]. exfalso. apply H. apply i_touched0. congruence.
  Qed.

  Lemma differ_nil v : differ VNil v = Done (match v with VNil => false | _ => true end).
  Proof. now destruct v. Qed.
  Lemma SFeqb_eq x y : x <> SpecFloat.S754_nan -> x <> SpecFloat.S754_zero true -> y <> SpecFloat.S754_zero true ->
    SpecFloat.SFeqb x y = true <-> x = y.
  Proof.
    intros Nx Zx Zy. unfold SpecFloat.SFeqb, SpecFloat.SFcompare. split.
    - destruct x as [[]|[]| |[] m e], y as [[]|[]| |[] m' e']; try congruence; try discriminate;
        (destruct (Z.compare_spec e e') as [<-|L|L]; [|discriminate|discriminate]);
        (destruct (Pos.compare_cont Eq m m') eqn:K; cbn; try discriminate);
        intros _; apply Pos.compare_eq in K; congruence.
    - intros <-. destruct x as [[]|[]| |[] m e]; try congruence; cbn; rewrite ?Z.compare_refl, ?Pos.compare_cont_refl; reflexivity.
  Qed.

  Lemma isSet_after ks : Forall (regular M class_of) ks ->
    exists d, performAll M class_of sprint convert_sql fresh ks = Done d /\
    forall o f, decl o f ->
      let a := attribute M f in
      (~ touched ks o -> isSet M class_of d o f = Done false) /\
      (touched ks o -> last_value M ks o f None = None -> isSet M class_of d o f = Done (match adefault a with VNil => false | _ => true end)) /\
      (touched ks o -> forall v, last_value M ks o f None = Some v -> database_kind (akind a) -> holdable M f v -> holdable M f (adefault a) ->
        exists b, isSet M class_of d o f = Done b /\ (b = true <-> v <> adefault a)) /\
      (touched ks o -> converted_kind (akind a) -> holdable M f (adefault a) -> isSet M class_of d o f = Done true).
  Proof using HM.
    intro R. destruct (run_fresh ks R) as (d & E & I). exists d. split; [exact E|]. intros o f D a. destruct I.
    assert (S : nat_in f (own M (class_of o)) = true) by now apply nat_in_spec.
    unfold isSet, getFeatureSchema. rewrite S. fold a. split; [|split; [|split]].
    - intro H. destruct (sid d o) as [i|] eqn:Ei; [|reflexivity]. exfalso. apply H, i_touched0. congruence.
    - intros H L. apply i_touched0 in H. destruct (sid d o) as [i|] eqn:Ei; [|congruence].
      destruct (i_cell0 o i f Ei D) as (x & Cx & _ & Nx). rewrite L in Nx. subst. unfold select. rewrite Cx. apply differ_nil.
    - intros H v L K Hv Hd. apply i_touched0 in H. destruct (sid d o) as [i|] eqn:Ei; [|congruence].
      destruct (i_cell0 o i f Ei D) as (x & Cx & _ & Nx). rewrite L in Nx. specialize (Nx K). unfold select. rewrite Cx, Nx.
      destruct Hv as [Nv Hv], Hd as [Nd Hd]. fold a in Hv, Hd, Nd. clear - K Hv Hd Nv Nd.
      revert Hd Nd. generalize (adefault a). intros w Hd Nd.
      destruct K as [K|[K|K]]; rewrite K in *; destruct Hv as (ty & Ty & Of & Rest), Hd as (ty' & Ty' & Of' & Rest');
        injection Ty as <-; injection Ty' as <-;
        destruct v; try solve [cbn in Of; intuition discriminate]; try discriminate; try contradiction;
        destruct w; try solve [cbn in Of'; intuition discriminate]; try discriminate; try contradiction; cbn [differ].
      + eexists. split; [reflexivity|]. rewrite negb_true_iff, Z.eqb_neq. split; congruence.
      + eexists. split; [reflexivity|]. rewrite negb_true_iff. split.
        * intros N X. injection X as <-. rewrite str_eqb_refl in N. discriminate.
        * intro N. destruct (str_eqb s s0) eqn:Es; [|reflexivity]. apply str_eqb_eq in Es. congruence.
      + destruct Rest as [R1 R2], Rest' as [R3 R4]. eexists. split; [reflexivity|]. rewrite negb_true_iff.
        pose proof (SFeqb_eq f0 f1 R1 R2 R4) as Q. destruct (SpecFloat.SFeqb f0 f1).
        * split; [discriminate|]. intro N. exfalso. apply N. f_equal. now apply Q.
        * split; [|reflexivity]. intros _ X. injection X as X. apply Q in X. discriminate.
    - intros H K Hd. apply i_touched0 in H. destruct (sid d o) as [i|] eqn:Ei; [|congruence].
      destruct Hd as [Nd Hd]. fold a in Hd, Nd. clear - K Hd Nd.
      revert Hd Nd. generalize (adefault a), (select d i f). intros w raw Hd Nd.
      destruct K as [K|[K|[K|[K|[K|K]]]]]; rewrite K in *; destruct Hd as (ty' & Ty' & Of' & Rest');
        injection Ty' as <-;
        destruct w; try solve [cbn in Of'; intuition discriminate]; try discriminate; try contradiction; now destruct raw.
  Qed.

  Lemma container_after ks : Forall (regular M class_of) ks ->
    exists d, performAll M class_of sprint convert_sql fresh ks = Done d /\
    forall o,
      (last_container ks o None = None -> getContainer M d o = None) /\
      (forall c f, last_container ks o None = Some (c, f) -> In f (features M (class_of c)) ->
        exists k, sid d c = Some k /\ getContainer M d o = Some (k, Some f) /\ forall c', sid d c' = Some k -> c' = c).
  Proof using HM.
    intro R. destruct (run_fresh ks R) as (d & E & I). exists d. split; [exact E|]. intros o. destruct I. split.
    - intro L. unfold getContainer. destruct (sid d o) as [i|] eqn:Ei; [|reflexivity].
      specialize (i_row0 o i Ei). rewrite L in i_row0. now rewrite i_row0.
    - intros c f L F. destruct (sid d o) as [i|] eqn:Ei.
      + pose proof (i_row0 o i Ei) as Ro. rewrite L in Ro. destruct Ro as (k & Hk & Ro).
        exists k. split; [exact Hk|]. split; [|intros c' H'; exact (i_inj0 _ _ _ H' Hk)].
        unfold getContainer. rewrite Ei, Ro. pose proof (i_range0 c k Hk). destruct (Z.eqb_spec k 0); [lia|].
        assert (Rc : exists r, rows d k = Some r /\ oclass r = class_of c).
        { specialize (i_row0 c k Hk). destruct (last_container ks c None) as [[c' f']|].
          - destruct i_row0 as (k' & _ & ->). eexists. split; reflexivity.
          - rewrite i_row0. eexists. split; reflexivity. }
        destruct Rc as (r & -> & ->). rewrite (proj2 HM (class_of c)). cbn [Z.of_nat]. rewrite Z.add_0_l.
        now rewrite feature_of_id.
      + destruct (i_none0 o Ei) as [N _]. congruence.
  Qed.

  (** a child that is first stored as a value of its container *)
  Lemma child_container ks o c f : Forall (regular M class_of) ks -> ~ touched ks o -> o <> c ->
    In f (features M (containing M f)) -> (exists l, features M (class_of c) = features M (containing M f) ++ l) ->
    exists d, performAll M class_of sprint convert_sql fresh ks = Done d /\
    let d' := fst (encodeChild M class_of d o c f) in
    exists k, sid d' c = Some k /\ getContainer M d' o = Some (k, Some f).
  Proof using HM.
    intros R T N F [l P]. destruct (run_fresh ks R) as (d & E & I). exists d. split; [exact E|]. unfold encodeChild.
    destruct (encodeSQLID d c) as [d1 k] eqn:Ec. destruct (encodeSQLID_inv _ _ _ _ _ _ _ I Ec) as (I1 & Hc & _). destruct I1.
    destruct (sid d1 o) as [i|] eqn:Ei.
    { exfalso. assert (X : sid d1 o <> None) by congruence. apply i_touched0 in X. destruct X; auto. }
    unfold encodeObject. cbn [fst sid].
    replace (Nat.eqb c o) with false by (symmetry; apply Nat.eqb_neq; congruence). exists k. split; [exact Hc|].
    unfold getContainer. cbn [sid rows]. rewrite Nat.eqb_refl, Z.eqb_refl.
    pose proof (i_range0 c k Hc). assert (G : (k >? 0) = true) by lia. rewrite G.
    replace (k =? 0) with false by lia. replace (k =? nextID d1) with false by lia.
    specialize (i_row0 c k Hc).
    assert (Rc : exists r, rows d1 k = Some r /\ oclass r = class_of c).
    { destruct (last_container ks c None) as [[c' f']|].
      - destruct i_row0 as (k' & _ & ->). eexists. split; reflexivity.
      - rewrite i_row0. eexists. split; reflexivity. }
    destruct Rc as (r & -> & ->). rewrite (proj2 HM (class_of c)). cbn [Z.of_nat]. rewrite Z.add_0_l.
    f_equal. f_equal. replace (getFeatureID M (containing M f) f) with (getFeatureID M (class_of c) f).
    - apply feature_of_id. rewrite P. apply in_or_app. auto.
    - unfold getFeatureID. rewrite P. now apply index_prefix.
  Qed.
End Store.
