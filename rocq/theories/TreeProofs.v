(** Proofs about containment traversals. *)
From Verif Require Import Base TreeModel TreeSpec.

(** *** contents list *)
Section Contents.
  Context (isMany isSet : nat -> bool) (valueList : nat -> list nat) (valueSingle : nat -> option nat) (resolve : nat -> nat).
  Notation contents := (contents_of isMany isSet valueList valueSingle).
  Notation HasNext := (cHasNext isMany isSet valueList valueSingle resolve).
  Notation Next := (cNext isMany isSet valueList valueSingle resolve).

  Definition vals (it : citer) : list nat := match values it with Some l => l | None => [] end.
  Definition left_ (it : citer) : list nat := vals it ++ map resolve (contents (features it)).
  (** the elements the iterator still has to deliver *)
  Definition delivers (it : citer) (r : list nat) : Prop :=
    match prepared it with
    | Prepared => exists x, cnext it = Some x /\ r = x :: left_ it
    | Unprepared => r = left_ it
    | NoMore => r = []
    end.

  Lemma findFeature_ok fs :
    let '(b, it) := findFeature isMany isSet valueList valueSingle resolve fs in
    delivers it (map resolve (contents fs)) /\
    match prepared it with Prepared => b = true | NoMore => b = false | Unprepared => False end.
  Proof.
    induction fs as [|f fs IH]; cbn [findFeature].
    - cbn. auto.
    - destruct (isSet f) eqn:S.
      + destruct (isMany f) eqn:M.
        * destruct (valueList f) as [|x rest] eqn:V; cbn [map].
          -- destruct (findFeature isMany isSet valueList valueSingle resolve fs) as [b it].
             unfold contents_of at 1. cbn [flat_map]. rewrite S, M, V. exact IH.
          -- split; [|reflexivity]. exists (resolve x). split; [reflexivity|].
             unfold left_, vals; cbn. rewrite S, M, V. cbn. rewrite map_app. reflexivity.
        * destruct (valueSingle f) as [x|] eqn:V.
          -- split; [|reflexivity]. exists (resolve x). split; [reflexivity|].
             unfold left_, vals; cbn. rewrite S, M, V. reflexivity.
          -- destruct (findFeature isMany isSet valueList valueSingle resolve fs) as [b it].
             unfold contents_of at 1. cbn [flat_map]. rewrite S, M, V. exact IH.
      + destruct (findFeature isMany isSet valueList valueSingle resolve fs) as [b it].
        unfold contents_of at 1. cbn [flat_map]. rewrite S. exact IH.
  Qed.

  Lemma HasNext_ok it r :
    delivers it r ->
    exists it', HasNext it = (match r with [] => false | _ => true end, it') /\ delivers it' r /\
                match r with [] => prepared it' = NoMore | _ => prepared it' = Prepared end.
  Proof.
    unfold delivers at 1, cHasNext. destruct (prepared it) eqn:P.
    - intros ->. unfold left_, vals. destruct (values it) as [[|x rest]|] eqn:V; cbn [app].
      + pose proof (findFeature_ok (features it)) as H.
        destruct (findFeature isMany isSet valueList valueSingle resolve (features it)) as [b it'].
        destruct H as [H Hb]. exists it'. unfold delivers in H |- *. destruct (prepared it').
        * destruct Hb.
        * subst b. rewrite H. auto.
        * destruct H as (y & N & ->). subst b. split; [reflexivity|]. split; [eauto|reflexivity].
      + exists (mkC (Some x) (Some rest) Prepared (features it)).
        split; [reflexivity|]. split; [|reflexivity]. exists x. split; reflexivity.
      + pose proof (findFeature_ok (features it)) as H.
        destruct (findFeature isMany isSet valueList valueSingle resolve (features it)) as [b it'].
        destruct H as [H Hb]. exists it'. unfold delivers in H |- *. destruct (prepared it').
        * destruct Hb.
        * subst b. rewrite H. auto.
        * destruct H as (y & N & ->). subst b. split; [reflexivity|]. split; [eauto|reflexivity].
    - intros ->. exists it. unfold delivers. rewrite P. auto.
    - intros (x & N & ->). exists it. split; [reflexivity|]. unfold delivers. rewrite P. split; [eauto|reflexivity].
  Qed.

  Lemma Next_ok it r :
    delivers it r ->
    match r with
    | [] => Next it = None
    | x :: r' => exists it', Next it = Some (Some x, it') /\ delivers it' r'
    end.
  Proof.
    intro H. unfold cNext. pose proof (HasNext_ok it r H) as (it1 & E & D & Pr).
    destruct (prepared it) eqn:P.
    - rewrite E. destruct r as [|x r]; [reflexivity|].
      unfold delivers in D. rewrite Pr in D. destruct D as (y & N & Q). injection Q as -> ->.
      eexists. rewrite N. split; [reflexivity|]. reflexivity.
    - rewrite E. unfold delivers in H. rewrite P in H. now subst r.
    - unfold delivers in H. rewrite P in H. destruct H as (x & N & ->).
      eexists. rewrite N. split; [reflexivity|]. reflexivity.
  Qed.

  (** a client of the iterator *)
  Fixpoint crun (it : citer) (calls : list tcall) : option (list tans) :=
    match calls with
    | [] => Some []
    | THas :: cs => let '(b, it') := HasNext it in let? l := crun it' cs in Some (ABool b :: l)
    | TNext :: cs => let? (x, it') := Next it in
                     match x with Some y => let? l := crun it' cs in Some (AObj y :: l) | None => None end
    end.

  Lemma crun_ok calls : forall it r, delivers it r -> crun it calls = answers r calls.
  Proof.
    induction calls as [|[|] cs IH]; intros it r D; cbn [crun answers]; [reflexivity| |].
    - destruct (HasNext_ok it r D) as (it' & -> & D' & _). now rewrite (IH it' r D').
    - pose proof (Next_ok it r D) as H. destruct r as [|x r].
      + now rewrite H.
      + destruct H as (it' & -> & D'). cbn [obind]. now rewrite (IH it' r D').
  Qed.

  Theorem contents_iterator fs calls :
    crun (cIterator fs) calls = answers (map resolve (contents fs)) calls.
  Proof. apply crun_ok. reflexivity. Qed.

  Lemma cSize_acc fs : forall n, fold_left (fun size f =>
      if isSet f then
        if isMany f then size + zlen (valueList f)
        else match valueSingle f with Some _ => size + 1 | None => size end
      else size) fs n = n + zlen (contents fs).
  Proof.
    induction fs as [|f fs IH]; intro n; cbn [fold_left].
    - change (zlen (contents [])) with 0. lia.
    - rewrite IH. unfold contents_of at 2; cbn [flat_map]. rewrite zlen_app. fold (contents fs).
      destruct (isSet f), (isMany f); try destruct (valueSingle f); unfold zlen; cbn [length]; lia.
  Qed.
  Lemma cSize_ok fs : cSize isMany isSet valueList valueSingle fs = zlen (contents fs).
  Proof. unfold cSize. rewrite cSize_acc. lia. Qed.

  Lemma cEmpty_ok fs : cEmpty isMany isSet valueList valueSingle fs = (zlen (contents fs) =? 0).
  Proof.
    induction fs as [|f fs IH]; cbn [cEmpty]; [reflexivity|].
    unfold contents_of; cbn [flat_map]. fold (contents fs). rewrite IH, zlen_app.
    pose proof (zlen_nonneg (contents fs)). pose proof (zlen_nonneg (valueList f)).
    destruct (isSet f), (isMany f); try destruct (valueSingle f); unfold zlen in *; cbn [length] in *;
      repeat match goal with |- context [?a =? 0] => destruct (Z.eqb_spec a 0) end; try lia; reflexivity.
  Qed.

  Lemma cGet_ok n : forall it r, delivers it r ->
    cGetFrom isMany isSet valueList valueSingle resolve it n = nth_error r n.
  Proof.
    induction n as [|n IH]; intros it r D; cbn [cGetFrom]; pose proof (Next_ok it r D) as H;
      destruct r as [|x r]; try (rewrite H; reflexivity); destruct H as (it' & -> & D').
    - reflexivity.
    - now rewrite (IH it' r D').
  Qed.

  Lemma cLoop_ok r : forall fuel it, delivers it r -> (length r <= fuel)%nat ->
    cLoop isMany isSet valueList valueSingle resolve fuel it = Some r.
  Proof.
    induction r as [|x r IH]; intros fuel it D L.
    - destruct (HasNext_ok it [] D) as (it' & E & _). destruct fuel; cbn; now rewrite E.
    - destruct (HasNext_ok it (x :: r) D) as (it' & E & D' & _). destruct fuel as [|fuel]; [cbn in L; lia|].
      cbn [cLoop]. rewrite E. pose proof (Next_ok it' (x :: r) D') as (it2 & -> & D2).
      rewrite (IH fuel it2 D2) by (cbn in L; lia). reflexivity.
  Qed.
End Contents.

(** *** tree iterator *)
Section Tree.
  Context (children : nat -> list nat).
  Notation preorder := (preorder children).
  Notation HasNext := (tHasNext children).
  Notation Next := (tNext children).

  Lemma preorder_app l1 : forall r1 l2 r2, preorder l1 r1 -> preorder l2 r2 -> preorder (l1 ++ l2) (r1 ++ r2).
  Proof.
    intros r1 l2 r2 H1 H2. revert l2 r2 H2. induction H1 as [|x xs a b Ha _ Hb IH]; intros l2 r2 H2; cbn; [exact H2|].
    rewrite <- app_assoc. apply pre_cons; [exact Ha|]. now apply IH.
  Qed.

  Lemma preorder_nil_iff l r : preorder l r -> (l = [] <-> r = []).
  Proof. destruct 1; split; intro; congruence. Qed.

  (** elements still to be delivered *)
  Definition tdelivers (it : titer) (r : list nat) : Prop :=
    match data it with
    | None => exists l, preorder (children (object it)) l /\ r = if root it then object it :: l else l
    | Some stk => preorder (concat stk) r /\ match stk with [] => True | top :: rest => top <> [] \/ concat rest = [] end
    end.

  Lemma concat_pop stk : concat (pop stk) = concat stk.
  Proof. induction stk as [|[|x l] stk IH]; cbn; auto. Qed.
  Lemma pop_top stk : match pop stk with [] => True | top :: _ => top <> [] end.
  Proof. induction stk as [|[|x l] stk IH]; cbn; auto. discriminate. Qed.

  Lemma advance_ok it stk r :
    preorder (concat stk) r -> match stk with [] => True | top :: rest => top <> [] \/ concat rest = [] end ->
    match r with
    | [] => advance children it stk = None
    | x :: r' => exists it', advance children it stk = Some (x, it') /\ tdelivers it' r'
    end.
  Proof.
    intros H T. destruct stk as [|[|x rest] stk].
    - cbn in H. inversion H; subst. reflexivity.
    - destruct T as [T|T]; [congruence|]. cbn in H. rewrite T in H. inversion H; subst. reflexivity.
    - cbn in H. inversion H as [|x' xs a b Ha Hb]; subst. cbn [advance]. eexists. split; [reflexivity|].
      unfold tdelivers; cbn. destruct (children x) as [|c cs] eqn:C; cbn [lHasNext].
      + inversion Ha; subst. cbn. split.
        * destruct rest; cbn; [rewrite concat_pop; exact Hb | exact Hb].
        * pose proof (pop_top (rest :: stk)) as Q. cbn in Q. destruct (if lHasNext rest then rest :: stk else pop stk); auto.
      + split; [|left; discriminate].
        change (concat ((c :: cs) :: rest :: stk)) with ((c :: cs) ++ (rest ++ concat stk)).
        now apply preorder_app.
  Qed.

  Lemma tHasNext_ok it r :
    tdelivers it r -> exists it', HasNext it = (match r with [] => false | _ => true end, it') /\ tdelivers it' r.
  Proof.
    unfold tHasNext. intro H. pose proof H as D. unfold tdelivers in H. destruct (data it) as [[|top rest]|] eqn:E.
    - destruct H as [H _]. cbn in H. inversion H; subst. eauto.
    - destruct H as [H T]. exists it. split; [|exact D]. f_equal.
      destruct top as [|x top]; cbn.
      + destruct T as [T|T]; [congruence|]. cbn in H. rewrite T in H. inversion H; reflexivity.
      + cbn in H. inversion H; reflexivity.
    - destruct H as (l & H & ->). destruct (root it) eqn:R; [eauto|].
      eexists. split; [|].
      + f_equal. destruct (preorder_nil_iff _ _ H) as [N1 N2]. destruct (children (object it)), l; try reflexivity;
          first [discriminate (N1 eq_refl) | discriminate (N2 eq_refl)].
      + unfold tdelivers; cbn. rewrite app_nil_r. auto.
  Qed.

  Lemma tNext_ok it r :
    tdelivers it r ->
    match r with
    | [] => Next it = None
    | x :: r' => exists it', Next it = Some (x, it') /\ tdelivers it' r'
    end.
  Proof.
    intro H. unfold tNext. unfold tdelivers in H. destruct (data it) as [stk|] eqn:E.
    - destruct H as [H T]. now apply advance_ok.
    - destruct H as (l & H & ->). destruct (root it) eqn:R.
      + eexists. split; [reflexivity|]. unfold tdelivers; cbn. rewrite app_nil_r. auto.
      + apply advance_ok; [cbn; now rewrite app_nil_r | now right].
  Qed.

  Lemma trun_ok calls : forall it r, tdelivers it r -> trun children it calls = answers r calls.
  Proof.
    induction calls as [|[|] cs IH]; intros it r D; cbn [trun answers]; [reflexivity| |].
    - destruct (tHasNext_ok it r D) as (it' & -> & D'). now rewrite (IH it' r D').
    - pose proof (tNext_ok it r D) as H. destruct r as [|x r].
      + now rewrite H.
      + destruct H as (it' & -> & D'). cbn [obind]. now rewrite (IH it' r D').
  Qed.

  Theorem tree_iterator o isRoot l calls :
    preorder (children o) l ->
    trun children (newTreeIterator o isRoot) calls = answers (if isRoot then o :: l else l) calls.
  Proof. intro H. apply trun_ok. exists l. auto. Qed.

  (** *** what the preorder is *)
  Lemma inside_trans x y z : inside children x y -> inside children y z -> inside children x z.
  Proof. intros H K. induction K; [eapply inside_deeper; eauto | eapply inside_deeper; eauto]. Qed.

  Lemma inside_inv x z : inside children x z -> In z (children x) \/ exists y, In y (children x) /\ inside children y z.
  Proof.
    induction 1 as [|y z H [IH|(w & Hw & IH)] Hz]; [now left| |].
    - right. exists y. split; [exact IH|]. now constructor.
    - right. exists w. split; [exact Hw|]. eapply inside_deeper; eauto.
  Qed.

  Lemma preorder_in l r : preorder l r -> forall z, In z r <-> In z l \/ exists y, In y l /\ inside children y z.
  Proof.
    induction 1 as [|x xs a b Ha IHa Hb IHb]; intro z; cbn.
    - split; [tauto|]. intros [[]|(y & [] & _)].
    - rewrite in_app_iff, IHa, IHb. split.
      + intros [->|[[H|(y & Hy & H)]|[H|(y & Hy & H)]]].
        * tauto.
        * right. exists x. split; [now left|]. now constructor.
        * right. exists x. split; [now left|]. eapply inside_trans; [constructor; exact Hy | exact H].
        * tauto.
        * right. exists y. tauto.
      + intros [[->|H]|(y & [->|Hy] & H)].
        * now left.
        * tauto.
        * right; left. now apply inside_inv.
        * right; right; right. eauto.
  Qed.

  Lemma preorder_parents l r : preorder l r ->
    forall l1 y l2, r = l1 ++ y :: l2 -> In y l \/ exists x, In x l1 /\ In y (children x).
  Proof.
    induction 1 as [|x xs a b Ha IHa Hb IHb]; intros l1 y l2 E.
    - destruct l1; discriminate.
    - destruct l1 as [|z l1]; cbn in E; injection E as <- E; [left; now left|].
      assert (K : (exists l2', a = l1 ++ y :: l2') \/ exists l1', l1 = a ++ l1' /\ b = l1' ++ y :: l2).
      { clear -E. revert l1 E. induction a as [|w a IH]; intros l1 E; cbn in E.
        - right. exists l1. auto.
        - destruct l1 as [|w' l1]; cbn in E; injection E as <- E.
          + left. exists a. reflexivity.
          + destruct (IH l1 E) as [(l2' & ->)|(l1' & -> & ->)]; [left; exists l2'; reflexivity | right; exists l1'; auto]. }
      destruct K as [(l2' & ->)|(l1' & -> & ->)].
      + destruct (IHa l1 y l2' eq_refl) as [H|(w & Hw & H)]; right; [exists x | exists w]; split; cbn; auto.
      + destruct (IHb l1' y l2 eq_refl) as [H|(w & Hw & H)]; [left; now right|].
        right. exists w. split; [right; apply in_or_app; now right | exact H].
  Qed.

  (** finite trees have no cycles *)
  Lemma preorder_in_sub l r : preorder l r -> forall x, In x l -> exists a, preorder (children x) a /\ (length a < length r)%nat.
  Proof.
    induction 1 as [|x xs a b Ha _ Hb IHb]; intros y Hy; [destruct Hy|].
    destruct Hy as [<-|Hy].
    - exists a. split; [exact Ha|]. cbn. rewrite app_length. lia.
    - destruct (IHb y Hy) as (a' & Ha' & L). exists a'. split; [exact Ha'|]. cbn. rewrite app_length. lia.
  Qed.
  Lemma preorder_det l r : preorder l r -> forall r', preorder l r' -> r = r'.
  Proof.
    induction 1 as [|x xs a b Ha IHa Hb IHb]; intros r' H'; inversion H'; subst; [reflexivity|].
    f_equal. f_equal; auto.
  Qed.
  Lemma inside_shorter x a : preorder (children x) a ->
    forall y, inside children x y -> exists b, preorder (children y) b /\ (length b < length a)%nat.
  Proof.
    intros Ha y H. induction H as [y Hy|y z _ (b & Hb & L) Hz].
    - apply (preorder_in_sub _ _ Ha y Hy).
    - destruct (preorder_in_sub _ _ Hb z Hz) as (c & Hc & L'). exists c. split; [exact Hc|lia].
  Qed.
  Lemma no_cycle x a : preorder (children x) a -> ~ inside children x x.
  Proof.
    intros Ha H. destruct (inside_shorter x a Ha x H) as (b & Hb & L).
    rewrite (preorder_det _ _ Ha _ Hb) in L. lia.
  Qed.

  (** each object has one place in one parent *)
  Hypothesis nodup_children : forall x, NoDup (children x).
  Hypothesis one_parent : forall x y z, In z (children x) -> In z (children y) -> x = y.

  (** two objects containing a common one are nested *)
  Lemma nested x z : inside children x z -> forall y, inside children y z -> x = y \/ inside children x y \/ inside children y x.
  Proof.
    induction 1 as [z Hz|w z H IH Hz]; intros y Hy.
    - inversion Hy as [z' Hz'|w z' Hw Hz']; subst.
      + left. eapply one_parent; eauto.
      + rewrite (one_parent _ _ _ Hz Hz'). tauto.
    - inversion Hy as [z' Hz'|w' z' Hw' Hz']; subst.
      + rewrite <- (one_parent _ _ _ Hz Hz'). tauto.
      + rewrite <- (one_parent _ _ _ Hz Hz') in Hw'. now apply IH.
  Qed.

  Lemma inside_parent x y p : In y (children p) -> inside children x y -> x = p \/ inside children x p.
  Proof.
    intros Hp H. inversion H as [z Hz|w z Hw Hz]; subst.
    - left. eapply one_parent; eauto.
    - right. now rewrite (one_parent _ _ _ Hp Hz).
  Qed.

  (** siblings: pairwise distinct, never inside one another *)
  Definition apart (l : list nat) := NoDup l /\ (forall x y, In x l -> In y l -> ~ inside children x y).

  Lemma children_apart x a : preorder (children x) a -> apart (children x).
  Proof.
    intro Ha. split; [apply nodup_children|]. intros y z Hy Hz H.
    destruct (inside_parent y z x Hz H) as [->|H'].
    - apply (no_cycle x a Ha). now constructor.
    - apply (no_cycle x a Ha). eapply inside_trans; [constructor; exact Hy | exact H'].
  Qed.

  Lemma preorder_nodup l r : preorder l r -> apart l -> NoDup r.
  Proof.
    induction 1 as [|x xs a b Ha IHa Hb IHb]; intros [Hd Hi]; [constructor|].
    inversion Hd as [|? ? Hx Hd']; subst.
    constructor.
    - rewrite in_app_iff, (preorder_in _ _ Ha), (preorder_in _ _ Hb).
      intros [[H|(y & Hy & H)]|[H|(y & Hy & H)]].
      + apply (no_cycle x a Ha). now constructor.
      + apply (no_cycle x a Ha). eapply inside_trans; [constructor; exact Hy | exact H].
      + tauto.
      + apply (Hi y x); [now right | now left | exact H].
    - apply NoDup_app_iff. split; [|split].
      + apply IHa. now apply (children_apart x a).
      + apply IHb. split; [exact Hd'|]. intros; apply Hi; now right.
      + intros z H1 H2. apply (preorder_in _ _ Ha) in H1. apply (preorder_in _ _ Hb) in H2.
        assert (Hxz : inside children x z).
        { destruct H1 as [H1|(y & Hy & H1)]; [now constructor | eapply inside_trans; [constructor; exact Hy | exact H1]]. }
        destruct H2 as [H2|(y & Hy & H2)].
        * apply (Hi x z); [now left | now right | exact Hxz].
        * destruct (nested x z Hxz y H2) as [->|[H|H]].
          -- tauto.
          -- apply (Hi x y); [now left | now right | exact H].
          -- apply (Hi y x); [now right | now left | exact H].
  Qed.

  Theorem preorder_once o l : preorder (children o) l -> NoDup l.
  Proof. intro H. eapply preorder_nodup; [exact H|]. eapply children_apart; eauto. Qed.
End Tree.

(** *** class-filtered traversal: soundness *)
Section ClassFilter.
  Context (containments : nat -> list nat) (refType : nat -> nat) (value : nat -> nat -> list nat).
  Context (endClass : nat).

  Definition tr_ok (c : nat) (t : transition) : Prop :=
    source t = c /\ In (reference t) (containments c) /\ target t = refType (reference t).
  Definition tab_ok (T : table) : Prop :=
    (forall c t, In t (getTransitions T c) -> tr_ok c t) /\ (forall c, endSet T c = true -> c = endClass).

  Lemma ts_add_in ts t x : In x (ts_add ts t) -> In x ts \/ x = t.
  Proof. unfold ts_add. destruct (existsb _ ts); [tauto|]. rewrite in_app_iff. cbn. intuition. Qed.
  Lemma ts_remove_in ts t x : In x (ts_remove ts t) -> In x ts.
  Proof.
    induction ts as [|y ts IH]; cbn; [tauto|]. destruct (tr_eqb y t).
    - intro H. right. destruct (rev ts) as [|z zs] eqn:E; [destruct H|].
      apply in_rev. rewrite E. destruct H as [->|H]; [now left|]. right. now apply in_rev in H.
    - intros [->|H]; auto.
  Qed.

  Lemma add_ok T t : tab_ok T -> tr_ok (source t) t -> tab_ok (addTransition T t).
  Proof.
    intros [H He] Ht. split; [|exact He]. intros c t'. unfold getTransitions at 1; cbn.
    destruct (Nat.eqb_spec c (source t)) as [->|N].
    - intro Q. apply ts_add_in in Q as [Q| ->]; auto.
    - apply H.
  Qed.
  Lemma remove_ok T t : tab_ok T -> tab_ok (removeTransition T t).
  Proof.
    intros [H He]. unfold removeTransition. destruct (contains T (source t)); [|split; auto].
    split; [|exact He]. intros c t'. unfold getTransitions at 1; cbn.
    destruct (Nat.eqb_spec c (source t)) as [->|N]; [|apply H]. intro Q. apply H. now apply ts_remove_in in Q.
  Qed.
  Lemma setIsEnd_ok T : tab_ok T -> tab_ok (setIsEnd T endClass).
  Proof.
    intros [H He]. split; [exact H|]. cbn. intros c Q. apply orb_true_iff in Q as [Q|Q]; [now apply Nat.eqb_eq in Q|auto].
  Qed.
  Lemma fold_add_ok ts : forall T c, (forall t, In t ts -> tr_ok c t) -> tab_ok T -> tab_ok (fold_left addTransition ts T).
  Proof.
    induction ts as [|t ts IH]; intros T c Hts H; cbn; [exact H|].
    apply (IH _ c); [intros; apply Hts; now right|]. apply add_ok; [exact H|].
    pose proof (Hts t (or_introl eq_refl)) as Q. destruct Q as (Q & ? & ?). split; [reflexivity|]. rewrite Q. auto.
  Qed.
  Lemma union_ok T other : tab_ok T -> tab_ok other -> tab_ok (union T other).
  Proof.
    intros H Ho. unfold union.
    assert (K : forall ks T, tab_ok T -> tab_ok (fold_left (fun T c => fold_left addTransition (getTransitions other c) T) ks T)).
    { induction ks as [|k ks IH]; intros T' H'; cbn; [exact H'|]. apply IH. apply (fold_add_ok _ _ k); [apply Ho|exact H']. }
    specialize (K (keys other) T H). destruct K as [K Ke]. split; [exact K|].
    cbn. intros c Q. apply orb_true_iff in Q as [Q|Q]; [apply (proj2 Ho c Q) | auto].
  Qed.

  Lemma compute_ok fuel : forall c cur res cur' res',
    tab_ok cur -> tab_ok res ->
    computeForState containments refType fuel c endClass (cur, res) = Some (cur', res') -> tab_ok cur' /\ tab_ok res'.
  Proof.
    induction fuel as [|fuel IH]; intros c cur res cur' res' Hc Hr; cbn [computeForState]; [discriminate|].
    assert (Hin : forall r, In r (containments c) -> In r (containments c)) by auto.
    revert cur res Hc Hr Hin. generalize (containments c) at 1 3 as refs.
    induction refs as [|r refs IHr]; intros cur res Hc Hr Hin.
    - cbn. intro Q; injection Q as <- <-. auto.
    - cbn [fold_left].
      set (t := mkTr r c (refType r)).
      assert (Ht : tr_ok (source t) t) by (split; [reflexivity|split; [apply Hin; now left|reflexivity]]).
      cbn [obind].
      set (res1 := if Nat.eqb (refType r) endClass then addTransition (union (setIsEnd res (refType r)) cur) t else res).
      assert (Hr1 : tab_ok res1).
      { unfold res1. destruct (Nat.eqb_spec (refType r) endClass) as [E|N]; [|exact Hr].
        apply add_ok; [|exact Ht]. apply union_ok; [|exact Hc]. rewrite E. now apply setIsEnd_ok. }
      destruct (contains cur (refType r)) eqn:Cn.
      + apply IHr; [exact Hc| |intros; apply Hin; now right].
        destruct (contains res1 (refType r)); [|exact Hr1]. apply add_ok; [|exact Ht]. now apply union_ok.
      + destruct (computeForState containments refType fuel (refType r) endClass (addTransition cur t, res1)) as [[cur2 res2]|] eqn:E.
        * cbn [obind]. destruct (IH _ _ _ _ _ (add_ok _ _ Hc Ht) Hr1 E) as [H1 H2].
          apply IHr; [now apply remove_ok|exact H2|intros; apply Hin; now right].
        * cbn [obind]. intro Q. exfalso. clear -Q. induction refs as [|r' refs IHr]; cbn in Q; [discriminate|auto].
  Qed.

  Lemma table_ok fuel start T : NewEClassTransitionsTable containments refType fuel start endClass = Some T -> tab_ok T.
  Proof.
    unfold NewEClassTransitionsTable.
    assert (H0 : tab_ok newTable) by (split; [intros c t [] | discriminate]).
    destruct (Nat.eqb start endClass); [intro Q; injection Q as <-; exact H0|].
    destruct (computeForState containments refType fuel start endClass (newTable, newTable)) as [[c r]|] eqn:E; [|discriminate].
    cbn. intro Q; injection Q as <-. eapply compute_ok in E; tauto.
  Qed.

  Context (T : table) (HT : tab_ok T) (o : nat).
  Notation part_inside := (part_inside containments value).
  Definition from (x : nat) := x = o \/ part_inside o x.
  Definition frame_ok (d : frame) : Prop :=
    from (fObj d) /\
    (forall x l, iter d = Some (x :: l) -> exists t, cur d = Some t) /\
    (forall l t, iter d = Some l -> cur d = Some t -> l <> [] -> exists c, tr_ok c t /\ incl l (value (fObj d) (reference t))) /\
    (forall r, rem d = Some r -> forall t, In t r -> exists c, tr_ok c t).

  Lemma from_part x y c r : from x -> In r (containments c) -> In y (value x r) -> part_inside o y.
  Proof.
    intros [->|H] Hr Hy.
    - apply pi_child. exists c, r. auto.
    - eapply pi_deeper; [exact H|]. exists c, r. auto.
  Qed.

  Lemma findNext_ok fuel : forall stk x stk',
    Forall frame_ok stk -> findNext value fuel T stk = Some (x, stk') ->
    Forall frame_ok stk' /\
    forall y, x = Some y -> exists z r c, from z /\ In r (containments c) /\ refType r = endClass /\ In y (value z r).
  Proof.
    induction fuel as [|fuel IH]; intros [|d stk] x stk' F E; cbn [findNext] in E; try discriminate.
    - injection E as <- <-. split; [constructor|discriminate].
    - injection E as <- <-. split; [constructor|discriminate].
    - inversion F as [|? ? Hd F']; subst. revert E.
      match goal with |- context [iter ?X] => set (d' := X) end.
      assert (Hd' : frame_ok d').
      { unfold d'. destruct (match iter d with Some (_ :: _) => true | _ => false end) eqn:B; [exact Hd|].
        destruct Hd as (Ho & H1 & H2 & H3).
        set (rm := match rem d with Some r => r | None => getTransitions T (fClass d) end).
        assert (Hrm : forall t, In t rm -> exists c, tr_ok c t).
        { unfold rm. destruct (rem d) as [r|] eqn:R; [intros t Ht; eapply H3; eauto|].
          intros t Ht. exists (fClass d). now apply HT. }
        destruct (rev rm) as [|t r] eqn:R.
        - split; [exact Ho|]. split; [|split]; cbn.
          + intros y l Q. rewrite Q in B. discriminate.
          + discriminate.
          + intros r' Q. injection Q as <-. intros ? [].
        - assert (Ht : exists c, tr_ok c t) by (apply Hrm, in_rev; rewrite R; now left).
          split; [exact Ho|]. split; [|split]; cbn.
          + eauto.
          + intros l t' Q Q' N. injection Q' as <-. destruct Ht as (c & Ht). exists c. split; [exact Ht|].
            destruct (lHasNext (value (fObj d) (reference t))) eqn:L.
            * injection Q as <-. apply incl_refl.
            * exfalso. destruct l as [|y l]; [congruence|]. rewrite Q in B. discriminate.
          + intros r' Q t' Ht'. injection Q as <-. apply Hrm, in_rev. rewrite R. right. now apply in_rev in Ht'. }
      destruct Hd' as (Ho & H1 & H2 & H3).
      destruct (iter d') as [[|y rest]|] eqn:I.
      + intro E. apply (IH _ _ _ F' E).
      + destruct (H1 y rest eq_refl) as (t & Ct). rewrite Ct.
        destruct (H2 (y :: rest) t eq_refl Ct) as (c & Ht & Hincl); [discriminate|].
        destruct Ht as (Hs & Hr & Htg).
        assert (Hy : In y (value (fObj d') (reference t))) by (apply Hincl; now left).
        assert (F2 : Forall frame_ok (mkF y (target t) None None None :: mkF (fObj d') (fClass d') (Some rest) (Some t) (rem d') :: stk)).
        { constructor; [|constructor; [|exact F']].
          - split; [|split; [|split]]; cbn; try discriminate. right. eapply from_part; eauto.
          - split; [exact Ho|]. split; [|split]; cbn.
            + eauto.
            + intros l t' Q Q' N. injection Q as <-. injection Q' as <-. exists c. split; [split; auto|].
              intros w Hw. apply Hincl. now right.
            + exact H3. }
        unfold isEnd. destruct (endSet T (target t)) eqn:En.
        * intro E. injection E as <- <-. split; [exact F2|]. intros y' Q. injection Q as <-.
          exists (fObj d'), (reference t), c. repeat split; auto. rewrite <- Htg. now apply HT.
        * intro E. apply (IH _ _ _ F2 E).
      + intro E. apply (IH _ _ _ F' E).
  Qed.

  Lemma deliver_ok fuel : forall stk l,
    Forall frame_ok stk -> deliver value fuel T stk = Some l ->
    forall y, In y l -> exists z r c, from z /\ In r (containments c) /\ refType r = endClass /\ In y (value z r).
  Proof.
    induction fuel as [|fuel IH]; intros stk l F; cbn [deliver]; [discriminate|].
    destruct (findNext value (S fuel) T stk) as [[x stk']|] eqn:E; cbn [obind]; [|discriminate].
    destruct (findNext_ok _ _ _ _ F E) as [F' H].
    destruct x as [x|].
    - destruct (deliver value fuel T stk') as [l'|] eqn:D; cbn [obind]; [|discriminate].
      intro Q; injection Q as <-. intros y [<-|Hy]; [now apply H | now apply (IH stk' l' F' D)].
    - intro Q; injection Q as <-. intros y [].
  Qed.
End ClassFilter.

Theorem class_filter_sound containments refType value objClass (sub : nat -> nat -> Prop) fuel o endClass l :
  well_typed refType value objClass sub ->
  EAllContentsWithClass containments refType value fuel objClass o endClass = Some l ->
  forall y, In y l -> part_inside containments value o y /\ sub (objClass y) endClass.
Proof.
  intros W E y Hy. unfold EAllContentsWithClass in E.
  destruct (NewEClassTransitionsTable containments refType fuel (objClass o) endClass) as [T|] eqn:HT; cbn [obind] in E; [|discriminate].
  apply (table_ok containments refType value) in HT.
  destruct (deliver_ok containments refType value endClass T HT o fuel [mkF o (objClass o) None None None] l) with (y := y) as (z & r & c & Hz & Hr & Hr' & Hv); auto.
  - constructor; [|constructor]. split; [now left|]. split; [|split]; cbn; discriminate.
  - split; [|].
    + eapply from_part; eauto.
    + rewrite <- Hr'. eapply W; eauto.
Qed.
