(** Proofs about attributes of dynamic and reflective objects. *)
From Verif Require Import Base DynModel DynSpec.

  Lemma search_from f l i j : nth_error l j = Some f -> (forall k, (k < j)%nat -> nth_error l k <> Some f) -> search f l i = Some (i + j)%nat.
  Proof.
    revert i j. induction l as [|g l IH]; intros i [|j] H N; try discriminate; cbn in *.
    - injection H as ->. rewrite Nat.eqb_refl. f_equal. lia.
    - destruct (Nat.eqb_spec g f) as [->|n]; [exfalso; exact (N 0%nat ltac:(lia) eq_refl)|].
      rewrite (IH (i + 1)%nat j H); [f_equal; lia|]. intros k Hk. exact (N (Datatypes.S k) ltac:(lia)).
  Qed.
  Lemma search_none f l i : ~ In f l -> search f l i = None.
  Proof.
    revert i. induction l as [|g l IH]; intros i H; [reflexivity|]. cbn in *.
    destruct (Nat.eqb_spec g f) as [->|n]; [tauto|]. apply IH. tauto.
  Qed.
  Lemma skipn_nth {A} (l : list A) i x : nth_error l i = Some x -> nth_error (skipn i l) 0 = Some x.
  Proof. revert i. induction l as [|y l IH]; intros [|i] H; try discriminate; cbn in *; auto. Qed.
  Lemma skipn_in {A} (l : list A) i x : In x (skipn i l) -> In x l.
  Proof. intro H. rewrite <- (firstn_skipn i l). apply in_or_app. now right. Qed.
  Lemma existsb_in f l : existsb (Nat.eqb f) l = true <-> In f l.
  Proof.
    rewrite existsb_exists. split; [intros [x [H E]]; apply Nat.eqb_eq in E; now subst|intro H; exists f; split; [assumption|apply Nat.eqb_refl]].
  Qed.


Section Proofs.
  Context {D : Type}.
  Implicit Types w : world D.

  Lemma feature_number w o f : numbered w -> eFeatureID w o f = if existsb (Nat.eqb f) (features w (class (objects w o))) then Some (fid w f) else None.
  Proof.
    intros N. unfold eFeatureID, getFeatureID. destruct (reflective _); [reflexivity|].
    destruct (existsb _ _) eqn:E.
    - apply existsb_in in E. pose proof (N _ _ E) as H. apply skipn_nth in H.
      rewrite (search_from _ _ _ 0%nat H) by lia. f_equal. lia.
    - apply search_none. intro H. apply skipn_in in H. apply existsb_in in H. congruence.
  Qed.
  Lemma number_of w o f : numbered w ->
    at_number w o f = if existsb (Nat.eqb f) (features w (class (objects w o))) then Some (f, fid w f) else None.
  Proof.
    intros N. unfold at_number. rewrite feature_number by assumption. destruct (existsb _ _) eqn:E; [|reflexivity].
    apply existsb_in in E. now rewrite (N _ _ E).
  Qed.
  Lemma properties_length w o : sized w -> length (getProperties w o) = length (features w (class (objects w o))).
  Proof.
    intros S. specialize (S o). unfold getProperties. destruct (properties _); [assumption|]. apply repeat_length.
  Qed.
  Lemma nth_repeat_nil n i : nth i (repeat (@Nil D) n) Nil = Nil.
  Proof. revert i. induction n; intros [|i]; cbn; auto. Qed.
  Lemma stored_nth w o f : stored w o f = nth (fid w f) (getProperties w o) Nil.
  Proof. unfold stored, getProperties. destruct (properties _); [reflexivity|]. now rewrite nth_repeat_nil. Qed.
  Lemma slot w o f : numbered w -> sized w -> In f (features w (class (objects w o))) ->
    nth_error (getProperties w o) (fid w f) = Some (stored w o f).
  Proof.
    intros N S H. rewrite stored_nth. apply nth_error_nth'. rewrite properties_length by assumption.
    apply nth_error_Some. rewrite (N _ _ H). discriminate.
  Qed.
  Lemma put_length (l : list (value D)) i v : length (put l i v) = length l.
  Proof. revert i. induction l; intros [|i]; cbn; auto. Qed.
  Lemma put_nth (l : list (value D)) i v j : nth j (put l i v) Nil = if Nat.eqb j i && (i <? length l)%nat then v else nth j l Nil.
  Proof.
    revert i j. induction l as [|x l IH]; intros [|i] [|j]; cbn; auto.
    - now rewrite andb_false_r.
    - rewrite IH. reflexivity.
  Qed.

  (** ** changes of one object *)
  Lemma objects_with w o x o' : objects (with_object o x w) o' = if Nat.eqb o' o then x else objects w o'.
  Proof. reflexivity. Qed.
  Lemma same_class w o l o' : class (objects (with_object o (with_properties l (objects w o)) w) o') = class (objects w o').
  Proof. rewrite objects_with. destruct (Nat.eqb_spec o' o) as [->|]; reflexivity. Qed.
  Lemma same_observed w o l o' : observed (objects (with_object o (with_properties l (objects w o)) w) o') = observed (objects w o').
  Proof. rewrite objects_with. destruct (Nat.eqb_spec o' o) as [->|]; reflexivity. Qed.
  Lemma sized_with w o l : sized w -> length l = length (getProperties w o) -> sized (with_object o (with_properties l (objects w o)) w).
  Proof.
    intros S H o'. rewrite same_class, objects_with. destruct (Nat.eqb_spec o' o) as [->|]; [|exact (S o')].
    cbn. rewrite H. now apply properties_length.
  Qed.
  Lemma stored_with w o l o' f : stored (with_object o (with_properties l (objects w o)) w) o' f =
    if Nat.eqb o' o then nth (fid w f) l Nil else stored w o' f.
  Proof. unfold stored. rewrite objects_with. destruct (Nat.eqb_spec o' o) as [->|]; reflexivity. Qed.

  (** the state of a history: nothing changes but slices, lists and notifications *)
  Record same_meta (w w' : world D) : Prop := {
    sm_features : features w' = features w;
    sm_fid : fid w' = fid w;
    sm_class : forall o, class (objects w' o) = class (objects w o);
    sm_observed : forall o, observed (objects w' o) = observed (objects w o) }.
  Lemma same_refl w : same_meta w w.
  Proof. constructor; auto. Qed.
  Lemma same_trans w1 w2 w3 : same_meta w1 w2 -> same_meta w2 w3 -> same_meta w1 w3.
  Proof.
    intros [a b c d] [a' b' c' d']. constructor; [congruence|congruence|intro o; now rewrite c'|intro o; now rewrite d'].
  Qed.
  Lemma numbered_same w w' : same_meta w w' -> numbered w -> numbered w'.
  Proof. intros [a b _ _] N c f. rewrite a, b. apply N. Qed.

  Lemma allocate_agrees w m o : sized w -> agrees w m -> agrees (allocate w o) m.
  Proof.
    intros S A. destruct A as [V L X G]. constructor; try assumption; unfold allocate.
    - intros o' f H. rewrite same_class in H. rewrite (V _ _ H). rewrite stored_with.
      destruct (Nat.eqb_spec o' o) as [->|]; [apply stored_nth|reflexivity].
    - intros l Hl. destruct (L l Hl) as [f [E1 [E2 E3]]]. exists f. rewrite same_class. auto.
  Qed.
  Lemma allocate_same w o : same_meta w (allocate w o).
  Proof. constructor; [reflexivity|reflexivity|intro o'; apply same_class|intro o'; apply same_observed]. Qed.
  Lemma allocate_sized w o : sized w -> sized (allocate w o).
  Proof. intro S. now apply sized_with. Qed.

  (** the invariant of a history *)
  Definition ready w m := numbered w /\ sized w /\ agrees w m.
  Lemma set_agrees w m o f v w' : ready w m -> In f (features w (class (objects w o))) ->
    eDynamicSet w o (fid w f) v = Some w' -> same_meta w w' /\ sized w' /\ agrees w' (assign o f v m).
  Proof.
    intros [N [S A]] Hf E. unfold eDynamicSet in E. rewrite (slot _ _ _ N S Hf) in E. injection E as <-. split; [|split].
    - constructor; [reflexivity|reflexivity|intro o'; apply same_class|intro o'; apply same_observed].
    - apply sized_with; [assumption|apply put_length].
    - destruct A as [V L X G]. constructor; try assumption.
      + intros o' g H. rewrite same_class in H. change (features _) with (features w) in H. rewrite stored_with. cbn.
        destruct (Nat.eqb_spec o' o) as [->|]; cbn; [|now apply V].
        rewrite put_nth.
        assert (fid w f < length (getProperties w o))%nat as B by (apply nth_error_Some; rewrite (slot _ _ _ N S Hf); discriminate).
        apply Nat.ltb_lt in B. rewrite B, andb_true_r.
        destruct (Nat.eqb_spec g f) as [->|n]; [now rewrite Nat.eqb_refl|].
        destruct (Nat.eqb_spec (fid w g) (fid w f)) as [e|]; [exfalso; pose proof (N _ _ H); pose proof (N _ _ Hf); congruence|].
        rewrite (V _ _ H). apply stored_nth.
      + intros l Hl. destruct (L l Hl) as [g [E1 [E2 E3]]]. exists g. rewrite same_class. auto.
  Qed.
  Lemma set_total w o f v : numbered w -> sized w -> In f (features w (class (objects w o))) -> exists w', eDynamicSet w o (fid w f) v = Some w'.
  Proof. intros N S H. unfold eDynamicSet. rewrite (slot _ _ _ N S H). eauto. Qed.
  Lemma notify_agrees w m o k f a b : agrees w m -> agrees (notify o k (Some f) a b w) (tell (watched_of w) o (mkN k o (Some f) a b) m).
  Proof.
    intros A. unfold notify, tell, watched_of. destruct (observed _); [|assumption]. destruct A as [V L X G].
    constructor; try assumption. cbn. now rewrite G.
  Qed.
  Lemma notify_same w o k f a b : same_meta w (notify o k f a b w).
  Proof. unfold notify. destruct (observed _); constructor; auto. Qed.
  Lemma notify_sized w o k f a b : sized w -> sized (notify o k f a b w).
  Proof. unfold notify. destruct (observed _); auto. Qed.
  Lemma create_agrees w m o f : agrees w m -> In f (features w (class (objects w o))) ->
    agrees (fst (createList o f w)) (mkM (var m) (fun l => if Nat.eqb l (next m) then (o, f, []) else list_of m l) (next m + 1) (log m)).
  Proof.
    intros [V L X G] Hf. constructor; cbn; try assumption; [|now rewrite X].
    intros l Hl. unfold upd. rewrite <- X. destruct (Nat.eqb_spec l (next m)) as [->|]; [exists f; cbn; auto|].
    apply L. lia.
  Qed.

  Lemma tell_same (w w' : world D) o (n : note D) (m : memory D) : same_meta w w' -> tell (watched_of w') o n m = tell (watched_of w) o n m.
  Proof. intros [_ _ _ d]. unfold tell, watched_of. now rewrite d. Qed.

  Context (many : nat -> bool) (default : nat -> option D).
  Theorem call_ok k w m : ready w m ->
    let r := real many default k w in let i := ideal many default (has_of w) (watched_of w) k m in
    snd r = snd i /\ same_meta w (fst r) /\ ready (fst r) (fst i).
  Proof.
    intros R. pose proof R as [N [S A]].
    assert (forall o f, known (has_of w) o f = existsb (Nat.eqb f) (features w (class (objects w o)))) as K by reflexivity.
    destruct k as [o f|o f v|o f|o f|l g]; cbn [real ideal].
    - unfold eGet. rewrite number_of, K by assumption. destruct (existsb _ _) eqn:E; [|cbn; split; [reflexivity|split; [apply same_refl|assumption]]].
      apply existsb_in in E. unfold eDynamicGet. rewrite (slot _ _ _ N S E), (agrees_values _ _ A _ _ E).
      assert (forall v : value D, let x := (allocate w o, Value v) in snd x = Value v /\ same_meta w (fst x) /\ ready (fst x) m) as Q.
      { intro v. cbn. split; [reflexivity|]. split; [apply allocate_same|]. split; [|split].
        - eapply numbered_same; [apply allocate_same|assumption].
        - now apply allocate_sized.
        - now apply allocate_agrees. }
      destruct (stored w o f) as [|d|l]; [|exact (Q (Data d))|exact (Q (Lst l))].
      destruct (many f); [|apply Q].
      cbn [createList]. pose proof (create_agrees w m o f A E) as A'.
      set (w1 := fst (createList o f w)) in *. change (mkW _ _ _ _ _ _) with w1.
      assert (same_meta w w1) as M1 by (constructor; auto).
      assert (ready w1 (mkM (var m) (fun l => if Nat.eqb l (next m) then (o, f, []) else list_of m l) (next m + 1) (log m))) as R1 by (split; [exact N|split; [exact S|exact A']]).
      destruct (set_total w1 o f (Lst (fresh w)) N S E) as [w2 E2]. change (fid w1) with (fid w) in E2. rewrite E2.
      destruct (set_agrees w1 _ o f (Lst (fresh w)) w2 R1 E E2) as [M2 [S2 A2]]. cbn [fst snd]. rewrite (agrees_next _ _ A) in *.
      split; [reflexivity|]. pose proof (same_trans _ _ _ M1 M2) as M3. split; [exact M3|]. split; [eapply numbered_same; eassumption|split; assumption].
    - unfold eSet. rewrite number_of, K by assumption. destruct (existsb _ _) eqn:E; [|cbn; split; [reflexivity|split; [apply same_refl|assumption]]].
      apply existsb_in in E. unfold eDynamicGet. rewrite (slot _ _ _ N S E), (agrees_values _ _ A _ _ E).
      destruct (set_total w o f v N S E) as [w2 E2]. rewrite E2.
      destruct (set_agrees w m o f v w2 R E E2) as [M2 [S2 A2]]. cbn [fst snd]. split; [reflexivity|].
      pose proof (same_trans _ _ _ M2 (notify_same w2 o SET (Some f) (stored w o f) v)) as M3. split; [exact M3|].
      split; [eapply numbered_same; eassumption|]. split; [now apply notify_sized|].
      rewrite <- (tell_same _ _ _ _ _ M2). now apply notify_agrees.
    - unfold eIsSet. rewrite number_of, K by assumption. destruct (existsb _ _) eqn:E; [|cbn; split; [reflexivity|split; [apply same_refl|assumption]]].
      apply existsb_in in E. unfold eDynamicIsSet, eDynamicGet. rewrite (slot _ _ _ N S E), (agrees_values _ _ A _ _ E). cbn [option_map fst snd].
      split; [reflexivity|]. split; [apply allocate_same|]. split; [|split].
      + eapply numbered_same; [apply allocate_same|assumption].
      + now apply allocate_sized.
      + now apply allocate_agrees.
    - unfold eUnset. rewrite number_of, K by assumption. destruct (existsb _ _) eqn:E; [|cbn; split; [reflexivity|split; [apply same_refl|assumption]]].
      apply existsb_in in E. unfold eDynamicGet, eDynamicUnset. rewrite (slot _ _ _ N S E), (agrees_values _ _ A _ _ E).
      destruct (set_total w o f Nil N S E) as [w2 E2]. rewrite E2.
      destruct (set_agrees w m o f Nil w2 R E E2) as [M2 [S2 A2]]. cbn [fst snd]. split; [reflexivity|].
      pose proof (same_trans _ _ _ M2 (notify_same w2 o UNSET (Some f) (stored w o f) Nil)) as M3. split; [exact M3|].
      split; [eapply numbered_same; eassumption|]. split; [now apply notify_sized|].
      rewrite <- (tell_same _ _ _ _ _ M2). now apply notify_agrees.
    - rewrite (agrees_next _ _ A). destruct (Nat.leb_spec (fresh w) l) as [Q|Q]; [cbn; split; [reflexivity|split; [apply same_refl|assumption]]|].
      destruct (agrees_lists _ _ A l) as [f [E1 [E2 E3]]]; [rewrite (agrees_next _ _ A); exact Q|]. rewrite E1. cbn [fst snd].
      unfold edit. cbn zeta. rewrite E2, (N _ _ E3). set (w1 := mkW _ _ _ _ _ _).
      assert (same_meta w w1) as M1 by (constructor; auto).
      split; [reflexivity|]. split; [exact (same_trans _ _ _ M1 (notify_same w1 _ _ _ _ _))|]. split; [|split].
      + eapply numbered_same; [exact (same_trans _ _ _ M1 (notify_same w1 _ _ _ _ _))|assumption].
      + now apply notify_sized.
      + rewrite <- (tell_same _ _ _ _ _ M1). apply notify_agrees. destruct A as [V L X G]. constructor; try assumption; [|reflexivity].
        cbn. intros l' Hl'. unfold upd. destruct (Nat.eqb_spec l' l) as [->|].
        * exists f. cbn. auto.
        * apply L. now rewrite X.
  Qed.
  Lemma ideal_ext h h' t t' k m : (forall o, h o = h' o) -> (forall o, t o = t' o) -> ideal many default h t k m = ideal many default h' t' k m.
  Proof.
    intros H T. destruct k; cbn; unfold known, tell; rewrite ?H, ?T; try reflexivity.
    destruct (_ <=? _)%nat; [reflexivity|]. destruct (list_of m l) as [[o f] es]. now rewrite T.
  Qed.
  Lemma ideal_run_ext h h' t t' ks m : (forall o, h o = h' o) -> (forall o, t o = t' o) -> ideal_run many default h t ks m = ideal_run many default h' t' ks m.
  Proof.
    intros H T. revert m. induction ks as [|k ks IH]; intro m; [reflexivity|]. cbn. rewrite (ideal_ext h h' t t') by assumption.
    destruct (ideal _ _ _ _ _ _) as [m1 a]. now rewrite IH.
  Qed.
  Theorem run_ok ks w m : ready w m ->
    let r := real_run many default ks w in let i := ideal_run many default (has_of w) (watched_of w) ks m in
    snd r = snd i /\ agrees (fst r) (fst i).
  Proof.
    revert w m. induction ks as [|k ks IH]; intros w m R; [cbn; split; [reflexivity|apply R]|].
    cbn [real_run ideal_run]. destruct (call_ok k w m R) as [E [M R1]].
    destruct (real many default k w) as [w1 a]. destruct (ideal many default (has_of w) (watched_of w) k m) as [m1 a']. cbn [fst snd] in *. subst a'.
    specialize (IH w1 m1 R1). cbn zeta in IH.
    rewrite (ideal_run_ext (has_of w1) (has_of w) (watched_of w1) (watched_of w)) in IH.
    - destruct (real_run many default ks w1) as [w2 l]. destruct (ideal_run many default (has_of w) (watched_of w) ks m1) as [m2 l'].
      cbn [fst snd] in *. destruct IH as [-> A]. auto.
    - intro o. unfold has_of. now rewrite (sm_features _ _ M), (sm_class _ _ M).
    - intro o. unfold watched_of. now rewrite (sm_observed _ _ M).
  Qed.
End Proofs.

(** ** changes of classes *)
Section Classes.
  Context {D : Type}.
  Implicit Types w : world D.

  Lemma resize_length n (l : list (value D)) : length (resize n l) = n.
  Proof. unfold resize. rewrite app_length, firstn_length, repeat_length. lia. Qed.
  Lemma resize_nth n (l : list (value D)) i : (i < n)%nat -> nth i (resize n l) Nil = nth i l Nil.
  Proof.
    intro H. unfold resize. destruct (Nat.lt_ge_cases i (length l)) as [Q|Q].
    - rewrite app_nth1 by (rewrite firstn_length; lia). rewrite <- (firstn_skipn n l) at 2.
      rewrite app_nth1 by (rewrite firstn_length; lia). reflexivity.
    - rewrite app_nth2 by (rewrite firstn_length; lia). rewrite nth_repeat_nil. symmetry. now apply nth_overflow.
  Qed.

  Lemma setEClass_sized w o c : sized w -> reflective (objects w o) = false -> sized (setEClass w o c).
  Proof.
    intros S R o'. unfold setEClass. rewrite R. destruct (Nat.eqb c _); [apply S|]. cbn. unfold upd.
    destruct (Nat.eqb_spec o' o) as [->|]; [cbn; apply resize_length|apply S].
  Qed.
  Lemma setEClass_stored w o c f g : numbered w -> sized w -> reflective (objects w o) = false -> c <> class (objects w o) ->
    In f (features w c) -> stored (setEClass w o c) o f =
      (if (fid w f <? length (features w (class (objects w o))))%nat then nth (fid w f) (getProperties w o) Nil else Nil) /\
    (fid w g = fid w f -> stored (setEClass w o c) o f = stored w o g).
  Proof.
    intros N S R n H. assert (fid w f < length (features w c))%nat as B by (apply nth_error_Some; rewrite (N _ _ H); discriminate).
    assert (stored (setEClass w o c) o f = nth (fid w f) (getProperties w o) Nil) as E.
    { unfold setEClass. rewrite R. apply Nat.eqb_neq in n. rewrite n. unfold stored. cbn. unfold upd. rewrite Nat.eqb_refl. cbn. now apply resize_nth. }
    rewrite E. split.
    - destruct (Nat.ltb_spec (fid w f) (length (features w (class (objects w o))))); [reflexivity|].
      apply nth_overflow. rewrite properties_length by assumption. assumption.
    - intros <-. symmetry. apply stored_nth.
  Qed.
  Lemma setEClass_others w o c o' f : o' <> o -> stored (setEClass w o c) o' f = stored w o' f.
  Proof.
    intro n. apply Nat.eqb_neq in n. unfold setEClass. destruct (reflective _); [|destruct (Nat.eqb c _); [reflexivity|]]; unfold stored; cbn; unfold upd; now rewrite n.
  Qed.

  Lemma create_sized w o c r b : sized w -> sized (create w o c r b).
  Proof.
    intros S o'. unfold create. rewrite objects_with. change (features (with_object _ _ _)) with (features w).
    destruct (Nat.eqb_spec o' o) as [->|]; [|apply S]. cbn. destruct r; [reflexivity|apply resize_length].
  Qed.
  Lemma create_unset w o c r b f : stored (create w o c r b) o f = Nil.
  Proof.
    unfold stored, create. rewrite objects_with, Nat.eqb_refl. cbn. destruct r; [reflexivity|].
    unfold resize. rewrite firstn_nil. apply nth_repeat_nil.
  Qed.
  (** classes get more features at their end *)
  Section Grown.
    Context (many : nat -> bool) (default : nat -> option D) (w0 : world D) (fs : nat -> list nat) (ids : nat -> nat).
    Hypothesis grows : forall c, exists more, fs c = features w0 c ++ more.
    Hypothesis keeps : forall c f, In f (features w0 c) -> ids f = fid w0 f.

    Lemma grown_call k o f : numbered w0 -> numbered (redefine w0 fs ids) -> properties (objects w0 o) <> None ->
      In f (features w0 (class (objects w0 o))) -> on o f k ->
      real many default k (redefine w0 fs ids) = (redefine (fst (real many default k w0)) fs ids, snd (real many default k w0)).
    Proof.
      intros N N' P H K.
      assert (at_number (redefine w0 fs ids) o f = Some (f, fid w0 f)) as A'.
      { rewrite number_of by assumption. cbn. rewrite (proj2 (existsb_in f _)); [now rewrite (keeps _ _ H)|].
        destruct (grows (class (objects w0 o))) as [more ->]. apply in_or_app. now left. }
      assert (at_number w0 o f = Some (f, fid w0 f)) as A by (rewrite number_of by assumption; rewrite (proj2 (existsb_in f _) H); reflexivity).
      assert (getProperties (redefine w0 fs ids) o = getProperties w0 o) as G by (unfold getProperties; cbn; destruct (properties _); [reflexivity|congruence]).
      assert (forall v, eDynamicSet (redefine w0 fs ids) o (fid w0 f) v = option_map (fun w => redefine w fs ids) (eDynamicSet w0 o (fid w0 f) v)) as E.
      { intro v. unfold eDynamicSet. rewrite G. destruct (nth_error _ _); reflexivity. }
      assert (allocate (redefine w0 fs ids) o = redefine (allocate w0 o) fs ids) as L by (unfold allocate; rewrite G; reflexivity).
      assert (forall k' g a b w', notify (D:=D) o k' g a b (redefine w' fs ids) = redefine (notify o k' g a b w') fs ids) as T
        by (intros; unfold notify; cbn; destruct (observed _); reflexivity).
      destruct k as [o1 f1|o1 f1 v|o1 f1|o1 f1|? ?]; [| | | |destruct K]; destruct K as [-> ->]; cbn [real].
      - unfold eGet, eDynamicGet. rewrite A, A', G, L. destruct (nth_error _ _) as [[|d|l]|] eqn:Q; try reflexivity.
        destruct (many f); [|reflexivity]. unfold createList. cbn [redefine fid features objects lists fresh sent]. rewrite (keeps _ _ H).
        unfold eDynamicSet, getProperties in *. cbn in *. destruct (properties (objects w0 o)); [|congruence]. rewrite Q. reflexivity.
      - unfold eSet, eDynamicGet. rewrite A, A', G, E. destruct (nth_error _ _); [|reflexivity].
        destruct (eDynamicSet _ _ _ _); cbn [option_map]; [|reflexivity]. now rewrite T.
      - unfold eIsSet, eDynamicIsSet, eDynamicGet. rewrite A, A', G, L. destruct (nth_error _ _); reflexivity.
      - unfold eUnset, eDynamicGet, eDynamicUnset. rewrite A, A', G, E. destruct (nth_error _ _); [|reflexivity].
        destruct (eDynamicSet _ _ _ _); cbn [option_map]; [|reflexivity]. now rewrite T.
    Qed.
    Lemma new_feature_panics k o f : numbered (redefine w0 fs ids) -> sized w0 -> properties (objects w0 o) <> None ->
      In f (fs (class (objects w0 o))) -> ~ In f (features w0 (class (objects w0 o))) -> on o f k ->
      real many default k (redefine w0 fs ids) = (redefine w0 fs ids, Failed).
    Proof.
      intros N S P H n K.
      assert (at_number (redefine w0 fs ids) o f = Some (f, ids f)) as A.
      { rewrite number_of by assumption. cbn. now rewrite (proj2 (existsb_in f _) H). }
      assert (nth_error (getProperties (redefine w0 fs ids) o) (ids f) = None) as Q.
      { apply nth_error_None. unfold getProperties. cbn. specialize (S o). destruct (properties (objects w0 o)) as [l|]; [|congruence].
        rewrite S. destruct (Nat.lt_ge_cases (ids f) (length (features w0 (class (objects w0 o))))) as [B|B]; [|assumption].
        exfalso. apply n. specialize (N (class (objects w0 o)) f H). cbn in N. destruct (grows (class (objects w0 o))) as [more E]. rewrite E in N.
        rewrite nth_error_app1 in N by assumption. now apply nth_error_In in N. }
      destruct k as [o1 f1|o1 f1 v|o1 f1|o1 f1|? ?]; [| | | |destruct K]; destruct K as [-> ->]; cbn [real];
        unfold eGet, eSet, eIsSet, eUnset, eDynamicIsSet, eDynamicGet, eDynamicUnset, eDynamicSet; rewrite A, Q; reflexivity.
    Qed.
  End Grown.

End Classes.
