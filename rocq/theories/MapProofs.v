(** Proofs about maps. *)
From Coq Require Import Permutation.
From Verif Require Import Base ListModel ListSpec ListProofs CallbackSpec CallbackProofs MapModel MapSpec.

Definition is_add (c : callback nat) : Prop :=
  match c with DidAdd _ _ | DidMove _ _ _ | DidChange => True | _ => False end.
Definition is_remove (c : callback nat) : Prop :=
  match c with DidRemove _ _ | DidMove _ _ _ | DidChange => True | _ => False end.

Lemma didAddAll_adds (l : list nat) : forall i sep, Forall is_add sep -> Forall is_add (didAddAll i l sep).
Proof. induction l; intros i sep H; cbn; [constructor|]. constructor; [exact I|]. apply Forall_app. auto. Qed.
Lemma didRemoveDown_removes (l : list nat) : forall i, Forall is_remove (didRemoveDown l i).
Proof. induction l; intros i; cbn; constructor; auto. exact I. Qed.

Lemma removeAllLoop_removes c n : forall data cb m d cb' r,
  removeAllLoop Nat.eqb 0%nat n data c cb m = Ret (d, cb') r -> Forall is_remove cb -> Forall is_remove cb'.
Proof.
  induction n as [|n IH]; intros data cb m d cb' r H F; cbn [removeAllLoop] in H.
  - unfold ret in H. injection H as <- <- _. exact F.
  - unfold lift in H. destruct (doGet data (Z.of_nat n)) as [v|]; [|discriminate].
    destruct (contains Nat.eqb (elems data c) v).
    + destruct ((Z.of_nat n <? 0) || (Z.of_nat n >=? zlen data)); [discriminate|].
      destruct (doRemove 0%nat data (Z.of_nat n)) as [[[d1 x] cb1]|] eqn:E; [|discriminate].
      apply (IH _ _ _ _ _ _ H). apply Forall_app. split; [exact F|].
      unfold doRemove, obind in E.
      repeat match type of E with context [match ?X with Some _ => _ | None => _ end] => destruct X; [|discriminate] end.
      injection E as _ _ <-. repeat constructor.
    + apply (IH _ _ _ _ _ _ H F).
Qed.

Lemma step_kind data o d cb r :
  step Nat.eqb 0%nat true data o = Ret (d, cb) r ->
  Forall is_add cb \/ Forall is_remove cb \/ (exists i new old, cb = [DidSet i new old; DidChange] /\ In new d) \/ (exists l, cb = [DidClear l] /\ d = []).
Proof.
  intro H. destruct o; cbn [step] in H; cbv zeta in H; cbn [andb] in H;
    repeat match type of H with
    | (if ?b then _ else _) = _ => destruct b; try discriminate
    end;
    unfold ret, lift in H; try solve [injection H as <- <- _; left; constructor];
    try match type of H with (match ?X with Some _ => _ | None => _ end) = _ => destruct X as [p|] eqn:E; [|discriminate] end.
  - destruct p as [d1 cb1]. injection H as <- <- _. injection E as <- <-. left. repeat constructor.
  - destruct p as [[d1 b] cb1]. injection H as <- <- _. injection E as <- _ <-. left.
    apply Forall_app. split; [apply didAddAll_adds; constructor | repeat constructor].
  - destruct p as [d1 cb1]. injection H as <- <- _. unfold doInsert, obind in E.
    repeat match type of E with context [match ?X with Some _ => _ | None => _ end] => destruct X; [|discriminate] end.
    injection E as _ <-. left. repeat constructor.
  - destruct p as [[d1 b] cb1]. injection H as <- <- _. unfold doInsertAll, obind in E.
    repeat match type of E with context [match ?X with Some _ => _ | None => _ end] => destruct X; [|discriminate] end.
    injection E as _ _ <-. left. apply didAddAll_adds. repeat constructor.
  - destruct p as [[d1 b] cb1]. injection H as <- <- _. left. unfold doMove in E.
    destruct (zget data (indexOf Nat.eqb data e)); [|discriminate]. cbn [obind] in E.
    destruct (indexOf Nat.eqb data e =? i); [injection E as _ _ <-; constructor|].
    match type of E with context [obind ?X _] => destruct X; [|discriminate] end. cbn [obind] in E.
    match type of E with context [obind ?X _] => destruct X; [|discriminate] end. cbn [obind] in E.
    injection E as _ _ <-. repeat constructor.
  - destruct p as [[d1 b] cb1]. injection H as <- <- _. left. unfold doMove in E.
    destruct (zget data i); [|discriminate]. cbn [obind] in E.
    destruct (i =? j); [injection E as _ _ <-; constructor|].
    match type of E with context [obind ?X _] => destruct X; [|discriminate] end. cbn [obind] in E.
    match type of E with context [obind ?X _] => destruct X; [|discriminate] end. cbn [obind] in E.
    injection E as _ _ <-. repeat constructor.
  - destruct p as [[d1 b] cb1]. injection H as <- <- _. right; left. unfold doRemove, obind in E.
    repeat match type of E with context [match ?X with Some _ => _ | None => _ end] => destruct X; [|discriminate] end.
    injection E as _ _ <-. repeat constructor.
  - destruct p as [[d1 b] cb1]. injection H as <- <- _. right; left. unfold doRemove, obind in E.
    repeat match type of E with context [match ?X with Some _ => _ | None => _ end] => destruct X; [|discriminate] end.
    injection E as _ _ <-. repeat constructor.
  - destruct p as [[d1 b] cb1]. injection H as <- <- _. right; left. unfold doRemoveRange, obind in E.
    repeat match type of E with context [match ?X with Some _ => _ | None => _ end] => destruct X; [|discriminate] end.
    injection E as _ _ <-. apply Forall_app. split; [apply didRemoveDown_removes|repeat constructor].
  - right; left. apply (removeAllLoop_removes _ _ _ _ _ _ _ _ H). constructor.
  - injection H as <- <- _. left; constructor.
  - destruct p as [[d1 b] cb1]. injection H as <- <- _. right; right; left. unfold doSet, obind in E.
    destruct (zget data i) as [old|]; [|discriminate].
    destruct (zset data i e) as [d2|] eqn:Zs; [|discriminate].
    injection E as <- <- <-. exists i, e, old. split; [reflexivity|].
    unfold zset in Zs. destruct ((0 <=? i) && (i <? zlen data)); [|discriminate]. injection Zs as <-.
    apply in_or_app. right. now left.
  - destruct p as [[d1 b] cb1]. injection H as <- <- _. right; right; right. injection E as <- <- <-. eauto.
Qed.

Section MapProofs.
  Context {K V : Type} (keqb : K -> K -> bool) (veqb : V -> V -> bool).
  Hypothesis keqb_ok : forall a b, reflect (a = b) (keqb a b).
  Notation emap := (emap K V).
  Implicit Types s : emap.

  Definition agree (s : emap) (m : option (K -> option V)) (l : list nat) : Prop :=
    match m with
    | None => True
    | Some f => forall k v, f k = Some v <-> exists e, In e l /\ keyOf s e = k /\ valOf s e = v
    end.
  Definition distinct s (l : list nat) := NoDup (map (keyOf s) l).

  Lemma agree_perm s m l l' : Permutation l l' -> agree s m l -> agree s m l'.
  Proof.
    intros P. destruct m as [f|]; [|auto]. unfold agree. intros H k v. rewrite (H k v).
    split; intros (e & Hin & Q); exists e; (split; [|exact Q]).
    - eapply Permutation_in; eauto.
    - eapply Permutation_in; [symmetry; exact P | exact Hin].
  Qed.
  Lemma distinct_perm s l l' : Permutation l l' -> distinct s l -> distinct s l'.
  Proof. intros P H. unfold distinct. eapply Permutation_NoDup; [apply Permutation_map; exact P | exact H]. Qed.

  Lemma distinct_cons s e l : distinct s (e :: l) -> distinct s l /\ forall e', In e' l -> keyOf s e' <> keyOf s e.
  Proof.
    unfold distinct. cbn. intro H. inversion H as [|? ? Hn Hd]; subst. split; [exact Hd|].
    intros e' Hin Q. apply Hn. rewrite <- Q. now apply in_map.
  Qed.
  Lemma distinct_same s l e e' : distinct s l -> In e l -> In e' l -> keyOf s e = keyOf s e' -> e = e'.
  Proof.
    unfold distinct. induction l as [|x l IH]; cbn; [tauto|]. intro H. inversion H as [|? ? Hn Hd]; subst.
    intros [->|He] [->|He'] Q; auto.
    - exfalso. apply Hn. rewrite Q. now apply in_map.
    - exfalso. apply Hn. rewrite <- Q. now apply in_map.
  Qed.

  Lemma agree_add s m e l : distinct s (e :: l) -> agree s m l -> agree s (doAddEntry keqb s m e) (e :: l).
  Proof.
    intros D. apply distinct_cons in D as [_ D]. destruct m as [f|]; [|auto]. cbn. intros H k v. unfold mput.
    destruct (keqb_ok k (keyOf s e)) as [->|N].
    - split.
      + intro Q; injection Q as <-. exists e. auto.
      + intros (e' & [<-|Hin] & Q1 & Q2); [now rewrite Q2|]. exfalso. exact (D e' Hin Q1).
    - rewrite H. split; intros (e' & Hin & Q1 & Q2).
      + exists e'. auto.
      + destruct Hin as [<-|Hin]; [congruence|]. exists e'. auto.
  Qed.
  Lemma agree_remove s m e l : distinct s (e :: l) -> agree s m (e :: l) -> agree s (doRemoveEntry keqb s m e) l.
  Proof.
    intros D. apply distinct_cons in D as [_ D]. destruct m as [f|]; [|auto]. cbn. intros H k v. unfold mput.
    destruct (keqb_ok k (keyOf s e)) as [->|N].
    - split; [discriminate|]. intros (e' & Hin & Q1 & Q2). exfalso. exact (D e' Hin Q1).
    - rewrite H. split; intros (e' & Hin & Q1 & Q2).
      + destruct Hin as [<-|Hin]; [congruence|]. exists e'. auto.
      + exists e'. auto.
  Qed.

  Lemma agree_adds s cb : Forall is_add cb -> forall m l, distinct s (l ++ entered cb) -> agree s m l ->
    agree s (fold_left (didCallback keqb s) cb m) (l ++ entered cb).
  Proof.
    induction 1 as [|c cb Hc F IH]; intros m l D A.
    - cbn in *. now rewrite app_nil_r.
    - destruct c; cbn in Hc; try tauto; cbn [entered fold_left didCallback] in *; [|now apply IH..].
      assert (P : Permutation (l ++ e :: entered cb) ((e :: l) ++ entered cb)) by (symmetry; apply Permutation_middle).
      apply (agree_perm s _ _ _ (Permutation_sym P)). apply IH.
      + exact (distinct_perm s _ _ P D).
      + apply agree_add; [|exact A]. apply (distinct_perm s _ _ P) in D. unfold distinct in *.
        rewrite map_app in D. now apply NoDup_app_iff in D.
  Qed.
  Lemma agree_removes s cb : Forall is_remove cb -> forall m l, distinct s (l ++ CallbackSpec.left cb) -> agree s m (l ++ CallbackSpec.left cb) ->
    agree s (fold_left (didCallback keqb s) cb m) l.
  Proof.
    induction 1 as [|c cb Hc F IH]; intros m l D A.
    - cbn in *. now rewrite app_nil_r in A.
    - destruct c; cbn in Hc; try tauto; cbn [CallbackSpec.left fold_left didCallback] in *; [|now apply IH..].
      assert (P : Permutation (l ++ old :: CallbackSpec.left cb) (old :: l ++ CallbackSpec.left cb)) by (symmetry; apply Permutation_middle).
      apply (distinct_perm s _ _ P) in D. apply (agree_perm s _ _ _ P) in A.
      apply IH; [exact (proj1 (distinct_cons s _ _ D))|]. now apply agree_remove.
  Qed.

  (** the invariant *)
  Definition inv s : Prop :=
    distinct s (elist s) /\ agree s (mapData s) (elist s) /\ (forall e, In e (elist s) -> (e < next s)%nat).

  Lemma is_add_left cb : Forall is_add cb -> CallbackSpec.left cb = [].
  Proof. induction 1 as [|c cb H F IH]; [reflexivity|]. destruct c; cbn in *; tauto. Qed.
  Lemma is_remove_entered cb : Forall is_remove cb -> entered cb = [].
  Proof. induction 1 as [|c cb H F IH]; [reflexivity|]. destruct c; cbn in *; tauto. Qed.

  Lemma listStep_inv s o s' r :
    inv s -> listStep keqb s o = Some (s', r) -> distinct s' (elist s') -> (forall e, In e (elist s') -> (e < next s)%nat) ->
    inv s' /\ keyOf s' = keyOf s /\ valOf s' = valOf s /\ next s' = next s.
  Proof.
    intros (D & A & Hn). unfold listStep. destruct (step Nat.eqb 0%nat true (elist s) o) as [[d cb] r'|] eqn:E; [|discriminate].
    intro Q; injection Q as <- <-. cbn. intros D' Hn'. split; [|auto]. split; [exact D'|]. split; [|exact Hn'].
    cbn. pose proof (proj1 (step_callbacks Nat.eqb 0%nat Nat.eqb_spec _ _ _ _ _ _ E)) as P. unfold faithful in P.
    change (agree s (fold_left (didCallback keqb s) cb (mapData s)) d).
    destruct (step_kind _ _ _ _ _ E) as [Ka|[Kr|[(i & new & old & -> & Hin)|(l & -> & ->)]]].
    - rewrite (is_add_left cb Ka), app_nil_r in P.
      apply (agree_perm s _ _ _ P). apply agree_adds; [exact Ka| |exact A]. exact (distinct_perm s _ _ (Permutation_sym P) D').
    - rewrite (is_remove_entered cb Kr), app_nil_r in P.
      apply agree_removes; [exact Kr| |]; [exact (distinct_perm s _ _ P D) | exact (agree_perm s _ _ _ P A)].
    - cbn [entered CallbackSpec.left] in P. cbn [fold_left didCallback].
      (* data ++ [new] ~ d ++ [old] *)
      destruct (Nat.eq_dec new old) as [->|Nno].
      + apply Permutation_app_inv_r in P.
        destruct (in_split _ _ Hin) as (l1 & l2 & E').
        assert (P1 : Permutation d (old :: l1 ++ l2)) by (rewrite E'; symmetry; apply Permutation_middle).
        apply (agree_perm s _ _ _ (Permutation_sym P1)). apply agree_add; [exact (distinct_perm s _ _ P1 D')|].
        apply agree_remove; [exact (distinct_perm s _ _ P1 D')|].
        apply (agree_perm s _ _ _ P1). exact (agree_perm s _ _ _ P A).
      + (* old left, new entered *)
        assert (In old (elist s ++ [new])) by (eapply Permutation_in; [symmetry; exact P | apply in_or_app; right; now left]).
        apply in_app_iff in H as [H|[H|[]]]; [|congruence].
        destruct (in_split _ _ H) as (l1 & l2 & E').
        assert (P1 : Permutation (elist s) (old :: l1 ++ l2)) by (rewrite E'; symmetry; apply Permutation_middle).
        assert (P2 : Permutation d (new :: l1 ++ l2)).
        { apply (Permutation_app_inv_r [old]). transitivity (elist s ++ [new]); [symmetry; exact P|].
          transitivity ((old :: l1 ++ l2) ++ [new]); [now apply Permutation_app_tail|].
          cbn. transitivity (old :: new :: l1 ++ l2); [constructor; symmetry; apply Permutation_cons_append|].
          etransitivity; [apply perm_swap|]. constructor. apply Permutation_cons_append. }
        apply (agree_perm s _ _ _ (Permutation_sym P2)). apply agree_add; [exact (distinct_perm s _ _ P2 D')|].
        apply agree_remove; [exact (distinct_perm s _ _ P1 D)|]. exact (agree_perm s _ _ _ P1 A).
    - cbn. exact I.
  Qed.

  (** *** initialisation of the map *)
  Lemma init_fold s l : forall f l0, distinct s (l0 ++ l) -> agree s (Some f) l0 ->
    agree s (Some (fold_left (fun f e => mput keqb f (keyOf s e) (Some (valOf s e))) l f)) (l0 ++ l).
  Proof.
    induction l as [|e l IH]; intros f l0 D A; cbn [fold_left].
    - now rewrite app_nil_r.
    - assert (P : Permutation (l0 ++ e :: l) ((e :: l0) ++ l)) by (symmetry; apply Permutation_middle).
      apply (agree_perm s _ _ _ (Permutation_sym P)). apply IH; [exact (distinct_perm s _ _ P D)|].
      apply (agree_add s (Some f) e l0); [|exact A]. apply (distinct_perm s _ _ P) in D. unfold distinct in *.
      rewrite map_app in D. now apply NoDup_app_iff in D.
  Qed.
  Lemma init_agree s : inv s -> agree s (Some (initDataMap keqb s)) (elist s).
  Proof.
    intros (D & A & _). unfold initDataMap. destruct (mapData s) as [f|]; [exact A|].
    apply (init_fold s (elist s) _ []); [exact D|].
    intros k v. split; [discriminate|]. intros (e & [] & _).
  Qed.

  Lemma find_entry s k : find (fun p => keqb (fst p) k) (view s) =
    option_map (fun e => (keyOf s e, valOf s e)) (getEntryForKey keqb s k).
  Proof.
    unfold view, getEntryForKey. induction (elist s) as [|e l IH]; cbn; [reflexivity|].
    destruct (keqb (keyOf s e) k); [reflexivity|exact IH].
  Qed.
  Lemma init_lookup s k : inv s -> initDataMap keqb s k = lookup keqb k (view s).
  Proof.
    intro H. pose proof (init_agree s H) as A. unfold lookup. rewrite find_entry.
    unfold getEntryForKey. destruct (find (fun e => keqb (keyOf s e) k) (elist s)) as [e|] eqn:F; cbn.
    - apply find_some in F as [Hin Q]. destruct (keqb_ok (keyOf s e) k) as [Qk|]; [|discriminate].
      apply A. eauto.
    - destruct (initDataMap keqb s k) as [v|] eqn:Q; [|reflexivity].
      apply A in Q as (e & Hin & Qk & _). apply (find_none _ _ F) in Hin. destruct (keqb_ok (keyOf s e) k); congruence.
  Qed.

  Lemma inv_inited s : inv s -> inv (inited keqb s).
  Proof. intro H. pose proof (init_agree s H). destruct H as (D & A & Hn). repeat split; auto; apply H0. Qed.

  (** agreement only depends on the entries of the list *)
  Lemma inv_ext s s' : elist s' = elist s -> mapData s' = mapData s -> (next s <= next s')%nat ->
    (forall e, In e (elist s) -> keyOf s' e = keyOf s e /\ valOf s' e = valOf s e) -> inv s -> inv s' /\ view s' = view s.
  Proof.
    intros E1 E2 E3 Hc (D & A & Hn). unfold inv, distinct, view. rewrite E1, E2.
    assert (Mk : map (keyOf s') (elist s) = map (keyOf s) (elist s)) by (apply map_ext_in; intros e He; apply (Hc e He)).
    split.
    - rewrite Mk. split; [exact D|]. split.
      + destruct (mapData s) as [f|]; [|exact I]. cbn in *. intros k v. rewrite A.
        split; intros (e & He & Q1 & Q2); exists e; destruct (Hc e He); split; auto; split; congruence.
      + intros e He. specialize (Hn e He). lia.
    - apply map_ext_in. intros e He. destruct (Hc e He). congruence.
  Qed.

  Lemma cell_other {X} (f : nat -> X) e x e' : e' <> e -> cell f e x e' = f e'.
  Proof. unfold cell. destruct (Nat.eqb_spec e' e); congruence. Qed.
  Lemma cell_same {X} (f : nat -> X) e x : cell f e x e = x.
  Proof. unfold cell. now rewrite Nat.eqb_refl. Qed.

  Lemma newEntry_inv s k v : inv s -> inv (newEntry s k v) /\ view (newEntry s k v) = view s.
  Proof.
    intros H. apply (inv_ext s); cbn; auto.
    intros e He. assert (e <> next s) by (destruct H as (_ & _ & Hn); specialize (Hn e He); lia).
    now rewrite !cell_other.
  Qed.

  Lemma getEntry_some s k e : getEntryForKey keqb s k = Some e -> In e (elist s) /\ keyOf s e = k.
  Proof. intro F. apply find_some in F as [H Q]. destruct (keqb_ok (keyOf s e) k); [auto|discriminate]. Qed.
  Lemma getEntry_none s k : getEntryForKey keqb s k = None -> forall e, In e (elist s) -> keyOf s e <> k.
  Proof. intros F e He. apply (find_none _ _ F) in He. destruct (keqb_ok (keyOf s e) k); [discriminate|auto]. Qed.
  Lemma view_has s k : existsb (fun p => keqb (fst p) k) (view s) = match getEntryForKey keqb s k with Some _ => true | None => false end.
  Proof.
    unfold view, getEntryForKey. induction (elist s) as [|e l IH]; cbn; [reflexivity|].
    destruct (keqb (keyOf s e) k); [reflexivity|exact IH].
  Qed.

  Lemma put_inv s k v s' r : inv s -> mstep keqb veqb s (MPut k v) = Some (s', r) ->
    inv s' /\ view s' = assign keqb k v (view s) /\ r = RNone.
  Proof.
    intros H. cbn [mstep]. unfold assign. rewrite view_has. destruct (getEntryForKey keqb s k) as [e|] eqn:G.
    - intro Q; injection Q as <- <-. destruct H as (D & A & Hn). apply getEntry_some in G as [He Hk].
      split; [|split; [|reflexivity]].
      + split; [exact D|]. split; [|exact Hn]. cbn. destruct (mapData s) as [f|]; [|exact I]. cbn in *.
        intros k' v'. unfold mput. destruct (keqb_ok k' k) as [->|N].
        * split.
          -- intro Q; injection Q as <-. exists e. rewrite cell_same. auto.
          -- intros (e' & He' & Q1 & Q2). rewrite (distinct_same s _ e' e D He' He) in Q2 by congruence.
             rewrite cell_same in Q2. congruence.
        * rewrite A. split; intros (e' & He' & Q1 & Q2); exists e';
            (assert (e' <> e) by congruence); rewrite cell_other in *; auto.
      + unfold view. cbn. rewrite map_map. apply map_ext_in. intros e' He'. cbn.
        destruct (keqb_ok (keyOf s e') k) as [Q|N].
        * rewrite (distinct_same s _ e' e D He' He) by congruence. rewrite cell_same. congruence.
        * rewrite cell_other; [reflexivity|congruence].
    - pose proof (newEntry_inv s k v H) as [H1 V1].
      assert (Nin : ~ In (next s) (elist s)) by (intro Q; destruct H as (_ & _ & Hn); specialize (Hn _ Q); lia).
      unfold listStep. change (elist (newEntry s k v)) with (elist s). cbn [step].
      assert (C : contains Nat.eqb (elist s) (next s) = false).
      { rewrite (contains_member Nat.eqb Nat.eqb_spec). now apply (member_not_in _ Nat.eqb_spec). }
      rewrite C. cbn [andb doAdd lift ret]. intro Q; injection Q as <- <-.
      assert (Dn : distinct (newEntry s k v) (elist s ++ [next s])).
      { unfold distinct. rewrite map_app. apply NoDup_app_iff. destruct H1 as (D1 & _). split; [exact D1|]. split; [repeat constructor; intros []|].
        intros x Hx [Q|[]]. cbn in Q. rewrite cell_same in Q. subst x. apply in_map_iff in Hx as (e & Qe & He).
        cbn in Qe. rewrite cell_other in Qe by (intro; subst; tauto). exact (getEntry_none s k G e He Qe). }
      split; [|split; [|reflexivity]].
      + destruct (listStep_inv (newEntry s k v) (Add (next s))
                   (mkMap (elist s ++ [next s]) (fold_left (didCallback keqb (newEntry s k v)) [DidAdd (zlen (elist s)) (next s); DidChange] (mapData (newEntry s k v)))
                          (keyOf (newEntry s k v)) (valOf (newEntry s k v)) (next (newEntry s k v))) (RBool true) H1) as [I1 _].
        * unfold listStep. change (elist (newEntry s k v)) with (elist s). cbn [step]. rewrite C. reflexivity.
        * exact Dn.
        * cbn. intros e He. apply in_app_iff in He as [He|[<-|[]]]; [|lia].
          destruct H as (_ & _ & Hn). specialize (Hn e He). lia.
        * exact I1.
      + transitivity (view (newEntry s k v) ++ [(k, v)]); [|now rewrite V1].
        unfold view at 1. cbn [elist keyOf valOf]. rewrite map_app. f_equal. cbn. now rewrite !cell_same.
  Qed.

  Lemma removeKey_inv s k s' r : inv s -> mstep keqb veqb s (MRemoveKey k) = Some (s', r) ->
    inv s' /\ view s' = erase keqb k (view s) /\ r = RVal (lookup keqb k (view s)).
  Proof.
    intros H. cbn [mstep]. unfold lookup. rewrite find_entry. destruct (getEntryForKey keqb s k) as [e|] eqn:G.
    - pose proof (getEntry_some s k e G) as [He Hk].
      destruct (listStep keqb s (Remove e)) as [[s1 r1]|] eqn:E; [|discriminate]. cbn [obind].
      intro Q; injection Q as <- <-.
      assert (Sp : exists n, first_pos Nat.eqb (elist s) e = Some n).
      { destruct (first_pos Nat.eqb (elist s) e) eqn:F; [eauto|]. apply (first_pos_none Nat.eqb Nat.eqb_spec) in F. tauto. }
      destruct Sp as (n & Fp). pose proof (first_pos_some Nat.eqb Nat.eqb_spec _ _ _ Fp) as Fn.
      pose proof (step_agrees Nat.eqb 0%nat Nat.eqb_spec true (elist s) (Remove e) (fun _ => I)) as Sa.
      cbn [spec_step] in Sa. rewrite Fp in Sa.
      unfold listStep in E. destruct (step Nat.eqb 0%nat true (elist s) (Remove e)) as [[d cb] rr|] eqn:St; [|discriminate].
      injection E as <- <-.
      assert (Hd : d = delete_at n (elist s)) by exact (proj1 Sa). subst d.
      assert (exists l1 l2, elist s = l1 ++ e :: l2 /\ delete_at n (elist s) = l1 ++ l2) as (l1 & l2 & El & Ed).
      { exists (firstn n (elist s)), (skipn (S n) (elist s)). split.
        - apply firstn_skipn_nth. tauto.
        - unfold delete_at, delete_range. now rewrite Nat.add_1_r. }
      assert (Dl : distinct s (l1 ++ l2)).
      { destruct H as (D & _). unfold distinct in *. rewrite El in D. rewrite map_app in D |- *. cbn in D.
        now apply NoDup_middle in D. }
      assert (Hsub : forall x, In x (l1 ++ l2) -> In x (elist s)).
      { intros x Hx. rewrite El. apply in_app_iff in Hx. apply in_or_app. cbn. tauto. }
      assert (LS : listStep keqb s (Remove e) = Some (mkMap (delete_at n (elist s)) (fold_left (didCallback keqb s) cb (mapData s)) (keyOf s) (valOf s) (next s), rr))
        by (unfold listStep; now rewrite St).
      destruct (listStep_inv s _ _ _ H LS) as [I1 _].
      { cbn [elist]. rewrite Ed. exact Dl. }
      { cbn [elist]. rewrite Ed. intros x Hx. destruct H as (_ & _ & Hn). auto. }
      split; [exact I1|]. split; [|reflexivity].
      unfold view; cbn [elist keyOf valOf]. rewrite Ed, El. unfold erase. rewrite !map_app, filter_app. cbn.
      destruct (keqb_ok (keyOf s e) k) as [_|]; [|congruence]. cbn.
      assert (Hf : forall l, (forall x, In x l -> keyOf s x <> k) ->
        filter (fun p => negb (keqb (fst p) k)) (map (fun x => (keyOf s x, valOf s x)) l) = map (fun x => (keyOf s x, valOf s x)) l).
      { induction l as [|x l IH]; intros Hl; cbn; [reflexivity|].
        destruct (keqb_ok (keyOf s x) k) as [Q|]; [exfalso; apply (Hl x); [now left|exact Q]|]. cbn. f_equal. apply IH. intros; apply Hl; now right. }
      destruct H as (D & _). unfold distinct in D. rewrite El, map_app in D. cbn in D. apply NoDup_middle in D as [Dn _].
      rewrite <- map_app in Dn.
      rewrite !Hf; [reflexivity| |]; intros x Hx Q; apply Dn; rewrite Hk, <- Q; apply in_map, in_or_app; tauto.
    - intro Q; injection Q as <- <-. split; [exact H|]. split; [|reflexivity].
      unfold erase, view. pose proof (getEntry_none s k G) as N. induction (elist s) as [|e l IH]; cbn; [reflexivity|].
      destruct (keqb_ok (keyOf s e) k) as [Q|]; [exfalso; apply (N e); [now left|exact Q]|]. cbn. f_equal.
      apply IH. intros; apply N; now right.
  Qed.

  Lemma mstep_ok s o s' r : inv s -> disciplined_op keqb s o -> mstep keqb veqb s o = Some (s', r) ->
    inv s' /\ match map_spec keqb veqb (view s) o with Some (l, r') => view s' = l /\ r = r' | None => True end.
  Proof.
    intros H Hd E. destruct o as [l|k v|e k|e v|k v|k|k|k|v]; cbn [map_spec].
    - cbn [mstep] in E. destruct (listStep keqb s l) as [[s1 r1]|] eqn:L; [|discriminate]. injection E as <- <-.
      cbn in Hd. destruct (Hd s1 r1 L) as [D1 N1]. split; [|exact I].
      destruct (listStep_inv s l s1 r1 H L) as [I1 _]; auto.
      unfold view in D1. rewrite map_map in D1. exact D1.
    - injection E as <- <-. split; [|exact I]. now apply newEntry_inv.
    - injection E as <- <-. split; [|exact I]. cbn in Hd. apply (inv_ext s); cbn; auto.
      intros e' He'. rewrite cell_other; [auto|]. intros ->. tauto.
    - injection E as <- <-. split; [|exact I]. cbn in Hd. apply (inv_ext s); cbn; auto.
      intros e' He'. rewrite cell_other; [auto|]. intros ->. tauto.
    - destruct (put_inv s k v s' r H E) as (A & B & C). auto.
    - destruct (removeKey_inv s k s' r H E) as (A & B & C). auto.
    - injection E as <- <-. split; [now apply inv_inited|]. split; [reflexivity|]. now rewrite init_lookup.
    - injection E as <- <-. split; [now apply inv_inited|]. split; [reflexivity|]. now rewrite init_lookup.
    - injection E as <- <-. split; [exact H|]. split; [reflexivity|]. f_equal. unfold view.
      induction (elist s) as [|e l IH]; cbn; [reflexivity|]. now rewrite IH.
  Qed.

  Lemma inv_new k0 v0 : inv (NewBasicEMap k0 v0).
  Proof. split; [constructor|]. split; [exact I|intros e []]. Qed.

  Lemma disciplined_app h : forall s h', disciplined keqb veqb s (h ++ h') ->
    disciplined keqb veqb s h /\ forall s', mrun keqb veqb s h = Some s' -> disciplined keqb veqb s' h'.
  Proof.
    induction h as [|o h IH]; intros s h' H; cbn in *.
    - split; [exact I|]. intros s' Q; injection Q as <-. exact H.
    - destruct H as [H1 H2]. destruct (mstep keqb veqb s o) as [[s1 r1]|]; cbn.
      + destruct (IH s1 h' H2) as [H3 H4]. auto.
      + split; [auto|discriminate].
  Qed.

  Lemma run_inv h : forall s s', inv s -> disciplined keqb veqb s h -> mrun keqb veqb s h = Some s' -> inv s'.
  Proof.
    induction h as [|o h IH]; intros s s' H D E; cbn in *.
    - now injection E as <-.
    - destruct D as [D1 D2]. destruct (mstep keqb veqb s o) as [[s1 r1]|] eqn:M; [|discriminate]. cbn in E.
      apply (IH s1 s'); auto. apply (mstep_ok s o s1 r1 H D1 M).
  Qed.

  Theorem map_agrees k0 v0 h o s s' r l r' :
    disciplined keqb veqb (NewBasicEMap k0 v0) (h ++ [o]) ->
    mrun keqb veqb (NewBasicEMap k0 v0) h = Some s ->
    mstep keqb veqb s o = Some (s', r) ->
    map_spec keqb veqb (view s) o = Some (l, r') ->
    view s' = l /\ r = r'.
  Proof.
    intros D E M Sp. destruct (disciplined_app h _ [o] D) as [D1 D2]. specialize (D2 s E). cbn in D2.
    pose proof (run_inv h _ s (inv_new k0 v0) D1 E) as H.
    destruct (mstep_ok s o s' r H (proj1 D2) M) as [_ Q]. rewrite Sp in Q. exact Q.
  Qed.

  (** map operations never panic and keep keys distinct *)
  Theorem map_total s o : (forall l, o <> MList l) -> exists s' r, mstep keqb veqb s o = Some (s', r).
  Proof.
    intro N. destruct o as [l|k v|e k|e v|k v|k|k|k|v]; cbn; eauto.
    - exfalso. now apply (N l).
    - destruct (getEntryForKey keqb s k); [eauto|]. unfold listStep. cbn [step].
      destruct (contains Nat.eqb (elist (newEntry s k v)) (next s)); cbn; eauto.
    - destruct (getEntryForKey keqb s k) as [e|] eqn:G; [|eauto]. unfold listStep.
      pose proof (step_agrees Nat.eqb 0%nat Nat.eqb_spec true (elist s) (Remove e) (fun _ => I)) as Sa.
      cbn [spec_step] in Sa. destruct (step Nat.eqb 0%nat true (elist s) (Remove e)) as [[d cb] rr|].
      + cbn. eauto.
      + destruct (first_pos Nat.eqb (elist s) e); contradiction.
  Qed.
End MapProofs.
