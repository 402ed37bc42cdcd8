From Verif Require Import Base ListModel GraphModel GraphSpec AdapterModel AdapterSpec.

Lemma notifier_eqb_spec a b : reflect (a = b) (notifier_eqb a b).
Proof.
  destruct a as [x|x], b as [y|y]; cbn; try (constructor; discriminate);
    destruct (Nat.eqb_spec x y); constructor; congruence.
Qed.
Lemma flag_eq A n b : set_flag A n b n = b.
Proof. unfold set_flag. destruct (notifier_eqb_spec n n); congruence. Qed.
Lemma flag_ne A n b m : m <> n -> set_flag A n b m = A m.
Proof. unfold set_flag. destruct (notifier_eqb_spec m n); congruence. Qed.
Lemma notifier_dec (a b : notifier) : a = b \/ a <> b.
Proof. destruct (notifier_eqb_spec a b); auto. Qed.

Section Walk.
  Context (M : metamodel) (s : state) (D : list obj).
  Context (Hch : forall n x, In x (children M s n) <-> edge s n x) (HD : forall n x, edge s n x -> In x D).

  Lemma covered_mono (P Q : notifier -> Prop) m : (forall n, P n -> covered s Q n) -> covered s P m -> covered s Q m.
  Proof. intros H C. induction C as [n Hn|p x _ IH Hx]; [auto|]. exact (cov_child _ _ _ _ IH Hx). Qed.

  (** ** putting the adapter *)
  Record grown (A : flags) (start : notifier -> Prop) (A' : flags) : Prop := {
    gr_keep : forall m, A m = true -> A' m = true;
    gr_start : forall m, start m -> A' m = true;
    gr_new : forall m, A' m = true -> A m = false -> start m \/ exists p x, m = NObj x /\ A' p = true /\ edge s p x;
    gr_down : forall p x, A' p = true -> A p = false -> edge s p x -> A' (NObj x) = true;
    gr_cov : forall m, A' m = true -> A m = true \/ covered s start m }.

  Lemma grown_none A : grown A (fun _ => False) A.
  Proof. constructor; try tauto; try congruence. Qed.
  Lemma grown_trans A S1 A1 S2 A2 : grown A S1 A1 -> grown A1 S2 A2 -> grown A (fun m => S1 m \/ S2 m) A2.
  Proof.
    intros [K1 B1 N1 D1 C1] [K2 B2 N2 D2 C2]. constructor.
    - auto.
    - intros m [H|H]; auto.
    - intros m H2 H. destruct (A1 m) eqn:E.
      + destruct (N1 m E H) as [?|(p & x & -> & Hp & Hx)]; [auto|]. right. exists p, x. auto.
      + destruct (N2 m H2 E) as [?|(p & x & -> & Hp & Hx)]; [auto|]. right. exists p, x. auto.
    - intros p x H2 H Hx. destruct (A1 p) eqn:E; [|eauto]. apply K2. eauto.
    - intros m H2. destruct (C2 m H2) as [H|H].
      + destruct (C1 m H) as [?|H']; [auto|]. right. revert H'. apply covered_mono. intros; constructor; auto.
      + right. revert H. apply covered_mono. intros; constructor; auto.
  Qed.
  Lemma grown_ext A (S1 S2 : notifier -> Prop) A' : (forall m, S1 m <-> S2 m) -> grown A S1 A' -> grown A S2 A'.
  Proof.
    intros E [K B N Dn C]. constructor; auto.
    - intros m H. apply B. now apply E.
    - intros m H H0. destruct (N m H H0) as [?|?]; [left; now apply E|auto].
    - intros m H. destruct (C m H) as [?|?]; [auto|]. right. revert H0. apply covered_mono. intros; constructor; now apply E.
  Qed.

  Definition missing (A : flags) : nat := length (filter (fun x => negb (A (NObj x))) D).
  Lemma filter_le {X} (f g : X -> bool) l : (forall x, f x = true -> g x = true) -> (length (filter f l) <= length (filter g l))%nat.
  Proof.
    intro H. induction l as [|x l IH]; cbn; [lia|]. destruct (f x) eqn:E.
    - rewrite (H x E). cbn. lia.
    - destruct (g x); cbn; lia.
  Qed.
  Lemma filter_length_le {X} (f : X -> bool) l : (length (filter f l) <= length l)%nat.
  Proof. induction l as [|x l IH]; cbn; [lia|]. destruct (f x); cbn; lia. Qed.
  Lemma filter_lt {X} (f g : X -> bool) l x : (forall x, f x = true -> g x = true) -> In x l -> f x = false -> g x = true ->
    (length (filter f l) < length (filter g l))%nat.
  Proof.
    intros H. induction l as [|y l IH]; cbn; [intros []|]. intros [->|Hx] Ef Eg.
    - rewrite Ef, Eg. cbn. pose proof (filter_le f g l H). lia.
    - specialize (IH Hx Ef Eg). destruct (f y) eqn:E; [rewrite (H y E); cbn; lia|]. destruct (g y); cbn; lia.
  Qed.
  Lemma missing_mono A A' : (forall m, A m = true -> A' m = true) -> (missing A' <= missing A)%nat.
  Proof.
    intro H. apply filter_le. intros x E. apply negb_true_iff in E. apply negb_true_iff.
    destruct (A (NObj x)) eqn:E1; [|reflexivity]. rewrite (H _ E1) in E. discriminate.
  Qed.
  Lemma missing_flag A x : In x D -> A (NObj x) = false -> (missing (set_flag A (NObj x) true) < missing A)%nat.
  Proof.
    intros Hx E. apply (filter_lt _ _ D x); [|assumption| |].
    - intros y Hy. apply negb_true_iff in Hy. apply negb_true_iff. destruct (notifier_dec (NObj y) (NObj x)) as [Q|Q].
      + rewrite Q in *. now rewrite flag_eq in Hy.
      + now rewrite flag_ne in Hy.
    - now rewrite flag_eq.
    - now rewrite E.
  Qed.

  Lemma fold_grown (g : flags -> obj -> option flags) k l :
    (forall A x, In x l -> (missing A < k)%nat -> exists A', g A x = Some A' /\ grown A (fun m => m = NObj x) A') ->
    forall A, (missing A < k)%nat -> exists A', foldA g l A = Some A' /\ grown A (fun m => exists x, In x l /\ m = NObj x) A'.
  Proof.
    induction l as [|x l IH]; intros H A Hk; cbn [foldA].
    - exists A. split; [reflexivity|]. apply (grown_ext _ (fun _ => False)); [|apply grown_none].
      intro m. split; [tauto|intros (? & [] & _)].
    - destruct (H A x) as (A1 & -> & G1); [now left|assumption|]. cbn [obind].
      destruct (IH (fun A y Hy => H A y (or_intror Hy)) A1) as (A2 & -> & G2).
      { pose proof (missing_mono A A1 (gr_keep _ _ _ G1)). lia. }
      exists A2. split; [reflexivity|]. eapply grown_ext; [|exact (grown_trans _ _ _ _ _ G1 G2)].
      intro m. cbn. split.
      + intros [->|(y & Hy & ->)]; eauto.
      + intros (y & [->|Hy] & ->); eauto.
  Qed.
  Lemma grown_flag A n A' : A n = false -> grown (set_flag A n true) (fun m => exists x, In x (children M s n) /\ m = NObj x) A' ->
    grown A (fun m => m = n) A'.
  Proof.
    intros Hn [K B N Dn C]. constructor.
    - intros m Hm. apply K. destruct (notifier_dec m n) as [->|Q]; [apply flag_eq|now rewrite flag_ne].
    - intros m ->. apply K, flag_eq.
    - intros m H H0. destruct (notifier_dec m n) as [->|Q]; [auto|].
      right. destruct (N m H) as [(x & Hx & ->)|?]; [now rewrite flag_ne| |assumption].
      exists n, x. split; [reflexivity|]. split; [apply K, flag_eq|]. now apply Hch.
    - intros p x H H0 Hx. destruct (notifier_dec p n) as [->|Q].
      + apply B. exists x. split; [now apply Hch|reflexivity].
      + apply (Dn p x H); [now rewrite flag_ne|assumption].
    - intros m H. destruct (notifier_dec m n) as [->|Q]; [right; now constructor|].
      destruct (C m H) as [H'|H']; [rewrite flag_ne in H' by assumption; auto|]. right.
      revert H'. apply covered_mono. intros q (x & Hx & ->). apply (cov_child _ _ n); [now constructor|now apply Hch].
  Qed.
  Lemma grown_present A n : A n = true -> grown A (fun m => m = n) A.
  Proof. intro H. constructor; auto; try congruence; intros m; try (intros ->; assumption); try congruence. Qed.

  Lemma addAdapter_in fuel : forall A x, In x D -> (missing A < fuel)%nat ->
    exists A', addAdapter M s fuel A (NObj x) = Some A' /\ grown A (fun m => m = NObj x) A'.
  Proof.
    induction fuel as [|k IH]; intros A x Hx Hk; [lia|]. cbn [addAdapter].
    destruct (A (NObj x)) eqn:E; [exists A; split; [reflexivity|now apply grown_present]|].
    pose proof (missing_flag A x Hx E) as Hm.
    destruct (fold_grown (fun A y => addAdapter M s k A (NObj y)) k (children M s (NObj x))) with (A := set_flag A (NObj x) true)
      as (A' & -> & G); [|lia|].
    { intros B y Hy. apply IH. apply (HD (NObj x)). now apply Hch. }
    exists A'. split; [reflexivity|]. now apply grown_flag.
  Qed.
  Lemma addAdapter_ok fuel A n : (length D + 1 < fuel)%nat ->
    exists A', addAdapter M s fuel A n = Some A' /\ grown A (fun m => m = n) A'.
  Proof.
    destruct fuel as [|k]; [lia|]. intro Hk. cbn [addAdapter].
    destruct (A n) eqn:E; [exists A; split; [reflexivity|now apply grown_present]|].
    destruct (fold_grown (fun A y => addAdapter M s k A (NObj y)) k (children M s n)) with (A := set_flag A n true)
      as (A' & -> & G).
    { intros B y Hy. apply addAdapter_in. apply (HD n). now apply Hch. }
    { unfold missing. pose proof (filter_length_le (fun x => negb (set_flag A n true (NObj x))) D). lia. }
    exists A'. split; [reflexivity|]. now apply grown_flag.
  Qed.
  Lemma addAll_ok fuel l A : (length D + 1 < fuel)%nat ->
    exists A', foldA (fun A x => addAdapter M s fuel A (NObj x)) l A = Some A' /\ grown A (fun m => exists x, In x l /\ m = NObj x) A'.
  Proof.
    intro Hk. apply (fold_grown _ fuel).
    - intros B x _ _. now apply addAdapter_ok.
    - unfold missing. pose proof (filter_length_le (fun x => negb (A (NObj x))) D). lia.
  Qed.

  (** the result does not depend on the fuel *)
  Lemma addAdapter_more k : forall A n A', addAdapter M s k A n = Some A' -> addAdapter M s (S k) A n = Some A'.
  Proof.
    induction k as [|k IH]; intros A n A' H; [discriminate|]. cbn [addAdapter] in H. change (addAdapter M s (S (S k)) A n) with
      (if A n then Some A else foldA (fun A x => addAdapter M s (S k) A (NObj x)) (children M s n) (set_flag A n true)).
    destruct (A n); [assumption|]. revert H. generalize (set_flag A n true). induction (children M s n) as [|x l IHl]; intros B H; [assumption|].
    cbn [foldA] in *. destruct (addAdapter M s k B (NObj x)) as [B'|] eqn:E; [|discriminate]. rewrite (IH _ _ _ E). cbn [obind] in *. now apply IHl.
  Qed.
  Lemma addAdapter_plus j : forall k A n A', addAdapter M s k A n = Some A' -> addAdapter M s (j + k) A n = Some A'.
  Proof. induction j as [|j IH]; intros k A n A' H; [assumption|]. cbn [Nat.add]. apply addAdapter_more. auto. Qed.
  Lemma addAdapter_some fuel A n A' : addAdapter M s fuel A n = Some A' -> grown A (fun m => m = n) A'.
  Proof.
    intro H. destruct (addAdapter_ok (S (S (length D)) + fuel) A n) as (A2 & E & G); [lia|].
    rewrite (addAdapter_plus _ _ _ _ _ H) in E. injection E as <-. exact G.
  Qed.

  (** ** taking it away *)
  Record shrunk (A : flags) (start : notifier -> Prop) (A' : flags) : Prop := {
    sh_sub : forall m, A' m = true -> A m = true;
    sh_start : forall m, start m -> A' m = false;
    sh_res : forall r, A' (NRes r) = A (NRes r);
    sh_gone : forall m, A m = true -> A' m = false -> start m \/ exists c x, m = NObj x /\ A' (NObj c) = false /\ edge s (NObj c) x
                 /\ forall r, edge s (NRes r) x -> A (NRes r) = false;
    sh_down : forall c x, A (NObj c) = true -> A' (NObj c) = false -> edge s (NObj c) x -> A' (NObj x) = true ->
                 exists r, edge s (NRes r) x /\ A (NRes r) = true;
    sh_cov : forall m, A m = true -> A' m = false -> exists x, start (NObj x) /\ (m = NObj x \/ exists y, m = NObj y /\ above s x y) }.

  Lemma shrunk_none A : shrunk A (fun _ => False) A.
  Proof. constructor; try tauto; try congruence. Qed.
  Lemma shrunk_trans A S1 A1 S2 A2 : shrunk A S1 A1 -> shrunk A1 S2 A2 -> shrunk A (fun m => S1 m \/ S2 m) A2.
  Proof.
    intros [K1 B1 R1 N1 D1 C1] [K2 B2 R2 N2 D2 C2].
    assert (F : forall m, A1 m = false -> A2 m = false).
    { intros m H. destruct (A2 m) eqn:E; [|reflexivity]. rewrite (K2 m E) in H. discriminate. }
    constructor.
    - auto.
    - intros m [H|H]; auto.
    - intro r. now rewrite R2.
    - intros m H H2. destruct (A1 m) eqn:E.
      + destruct (N2 m E H2) as [?|(c & x & -> & Hc & Hx & Hr)]; [auto|]. right. exists c, x.
        repeat split; auto. intros r He. rewrite <- R1. auto.
      + destruct (N1 m H E) as [?|(c & x & -> & Hc & Hx & Hr)]; [auto|]. right. exists c, x. auto.
    - intros c x H H2 Hx Hx2. destruct (A1 (NObj c)) eqn:E.
      + destruct (D2 c x E H2 Hx Hx2) as (r & ? & ?). exists r. rewrite <- R1. auto.
      + apply (D1 c x); auto.
    - intros m H H2. destruct (A1 m) eqn:E.
      + destruct (C2 m E H2) as (x & ? & ?). eauto.
      + destruct (C1 m H E) as (x & ? & ?). eauto.
  Qed.
  Lemma shrunk_ext A (S1 S2 : notifier -> Prop) A' : (forall m, S1 m <-> S2 m) -> shrunk A S1 A' -> shrunk A S2 A'.
  Proof.
    intros E [K B R N Dn C]. constructor; auto.
    - intros m H. apply B. now apply E.
    - intros m H H0. destruct (N m H H0) as [?|?]; [left; now apply E|auto].
    - intros m H H0. destruct (C m H H0) as (x & ? & ?). exists x. split; [now apply E|assumption].
  Qed.

  Definition present (A : flags) : nat := length (filter (fun x => A (NObj x)) D).
  Lemma present_mono A A' : (forall m, A' m = true -> A m = true) -> (present A' <= present A)%nat.
  Proof. intro H. apply filter_le. auto. Qed.
  Lemma present_flag A x : In x D -> A (NObj x) = true -> (present (set_flag A (NObj x) false) < present A)%nat.
  Proof.
    intros Hx E. apply (filter_lt _ _ D x); [|assumption| |assumption].
    - intros y Hy. destruct (notifier_dec (NObj y) (NObj x)) as [Q|Q].
      + rewrite Q in *. now rewrite flag_eq in Hy.
      + now rewrite flag_ne in Hy.
    - now rewrite flag_eq.
  Qed.

  (** the objects of a list whose resource does not carry the adapter *)
  Definition unkept (A : flags) (l : list obj) (m : notifier) : Prop :=
    exists x, In x l /\ m = NObj x /\ forall r, edge s (NRes r) x -> A (NRes r) = false.
  Lemma kept_resource A x : kept s A false true x = true <-> exists r, edge s (NRes r) x /\ A (NRes r) = true.
  Proof.
    unfold kept. cbn. rewrite orb_false_r. destruct (internalResource s x) as [r|] eqn:E.
    - split; [intro; exists r; auto|]. intros (r' & [= <-] & H). exact H.
    - split; [discriminate|]. intros (r & H & _). congruence.
  Qed.
  Lemma kept_not A x : kept s A false true x = false <-> forall r, edge s (NRes r) x -> A (NRes r) = false.
  Proof.
    split.
    - intros H r Hr. destruct (A (NRes r)) eqn:E; [|reflexivity].
      rewrite (proj2 (kept_resource A x)) in H; [discriminate|]. eauto.
    - intro H. destruct (kept s A false true x) eqn:E; [|reflexivity].
      apply kept_resource in E as (r & Hr & Ha). rewrite (H r Hr) in Ha. discriminate.
  Qed.
  Lemma fold_shrunk (g : flags -> obj -> option flags) k l :
    (forall A x, In x l -> (present A < k)%nat -> exists A', g A x = Some A' /\ shrunk A (fun m => m = NObj x) A') ->
    forall A, (present A < k)%nat ->
    exists A', foldA (fun A x => if kept s A false true x then Some A else g A x) l A = Some A' /\ shrunk A (unkept A l) A'.
  Proof.
    induction l as [|x l IH]; intros H A Hk; cbn [foldA].
    - exists A. split; [reflexivity|]. apply (shrunk_ext _ (fun _ => False)); [|apply shrunk_none].
      intro m. split; [tauto|intros (? & [] & _)].
    - destruct (kept s A false true x) eqn:Ek.
      + cbn [obind]. destruct (IH (fun A y Hy => H A y (or_intror Hy)) A Hk) as (A2 & -> & G2).
        exists A2. split; [reflexivity|]. eapply shrunk_ext; [|exact G2]. intro m. split.
        * intros (y & Hy & -> & Hr). exists y. cbn. auto.
        * intros (y & [<-|Hy] & -> & Hr); [|exists y; auto]. apply kept_not in Hr. congruence.
      + destruct (H A x) as (A1 & -> & G1); [now left|assumption|]. cbn [obind].
        destruct (IH (fun A y Hy => H A y (or_intror Hy)) A1) as (A2 & -> & G2).
        { pose proof (present_mono A A1 (sh_sub _ _ _ G1)). lia. }
        exists A2. split; [reflexivity|]. eapply shrunk_ext; [|exact (shrunk_trans _ _ _ _ _ G1 G2)].
        intro m. unfold unkept. split.
        * intros [->|(y & Hy & -> & Hr)].
          -- exists x. split; [now left|]. split; [reflexivity|]. now apply kept_not.
          -- exists y. split; [now right|]. split; [reflexivity|]. intros r Hr'. rewrite <- (sh_res _ _ _ G1). auto.
        * intros (y & [<-|Hy] & -> & Hr); [now left|]. right. exists y. split; [assumption|]. split; [reflexivity|].
          intros r Hr'. rewrite (sh_res _ _ _ G1). auto.
  Qed.
  Lemma shrunk_flag A c A' : A (NObj c) = true ->
    shrunk (set_flag A (NObj c) false) (unkept (set_flag A (NObj c) false) (children M s (NObj c))) A' ->
    shrunk A (fun m => m = NObj c) A'.
  Proof.
    intros Hc [K B R N Dn C]. set (A1 := set_flag A (NObj c) false) in *.
    assert (Er : forall r, A1 (NRes r) = A (NRes r)) by (intro; unfold A1; apply flag_ne; discriminate).
    assert (Ec : A1 (NObj c) = false) by apply flag_eq.
    assert (En : forall m, m <> NObj c -> A1 m = A m) by (intros; unfold A1; now apply flag_ne).
    assert (Fc : A' (NObj c) = false).
    { destruct (A' (NObj c)) eqn:E; [|reflexivity]. apply K in E. congruence. }
    constructor.
    - intros m H. apply K in H. destruct (notifier_dec m (NObj c)) as [->|Q]; [assumption|]. now rewrite <- En.
    - now intros m ->.
    - intro r. now rewrite R.
    - intros m H H'. destruct (notifier_dec m (NObj c)) as [->|Q]; [auto|]. right.
      destruct (N m) as [(x & Hx & -> & Hr)|(d & x & -> & Hd & Hx & Hr)]; [now rewrite En|assumption| |].
      + exists c, x. split; [reflexivity|]. split; [assumption|]. split; [now apply Hch|]. intros r He. rewrite <- Er. auto.
      + exists d, x. split; [reflexivity|]. split; [assumption|]. split; [assumption|]. intros r He. rewrite <- Er. auto.
    - intros d x H H' Hx Hx'. destruct (notifier_dec (NObj d) (NObj c)) as [[= ->]|Q].
      + destruct (kept s A1 false true x) eqn:Ek.
        * apply kept_resource in Ek as (r & He & Ha). exists r. split; [assumption|]. now rewrite <- Er.
        * rewrite (B (NObj x)) in Hx'; [discriminate|]. exists x. split; [now apply Hch|]. split; [reflexivity|]. now apply kept_not.
      + destruct (Dn d x) as (r & He & Ha); auto; [now rewrite En|]. exists r. split; [assumption|]. now rewrite <- Er.
    - intros m H H'. exists c. split; [reflexivity|]. destruct (notifier_dec m (NObj c)) as [->|Q]; [auto|]. right.
      destruct (C m) as (x & (z & Hz & [= ->] & _) & Hm); [now rewrite En|assumption|].
      apply Hch in Hz. cbn in Hz. destruct Hm as [->|(y & -> & Hy)].
      + exists z. split; [reflexivity|]. now constructor.
      + exists y. split; [reflexivity|]. clear - Hz Hy. induction Hy as [z y Hy|d z y Hy _ IH].
        * apply (above_step _ z); [assumption|]. now constructor.
        * apply (above_step _ d); auto.
  Qed.
  Lemma shrunk_absent A n : A n = false -> shrunk A (fun m => m = n) A.
  Proof. intro H. constructor; auto; try congruence; intros m; try (intros ->; assumption); try congruence. Qed.

  Lemma removeAdapter_in fuel : forall A x, In x D -> (present A < fuel)%nat ->
    exists A', removeAdapter M s fuel A (NObj x) = Some A' /\ shrunk A (fun m => m = NObj x) A'.
  Proof.
    induction fuel as [|k IH]; intros A x Hx Hk; [lia|]. cbn [removeAdapter].
    destruct (A (NObj x)) eqn:E; cbn [negb]; [|exists A; split; [reflexivity|now apply shrunk_absent]].
    pose proof (present_flag A x Hx E) as Hm.
    destruct (fold_shrunk (fun A y => removeAdapter M s k A (NObj y)) k (children M s (NObj x))) with (A := set_flag A (NObj x) false)
      as (A' & E' & G); [|lia|].
    { intros B y Hy. apply IH. apply (HD (NObj x)). now apply Hch. }
    exists A'. split; [exact E'|]. now apply shrunk_flag.
  Qed.
  Lemma removeAdapter_ok fuel A x : (length D + 1 < fuel)%nat ->
    exists A', removeAdapter M s fuel A (NObj x) = Some A' /\ shrunk A (fun m => m = NObj x) A'.
  Proof.
    destruct fuel as [|k]; [lia|]. intro Hk. cbn [removeAdapter].
    destruct (A (NObj x)) eqn:E; cbn [negb]; [|exists A; split; [reflexivity|now apply shrunk_absent]].
    destruct (fold_shrunk (fun A y => removeAdapter M s k A (NObj y)) k (children M s (NObj x))) with (A := set_flag A (NObj x) false)
      as (A' & E' & G).
    { intros B y Hy. apply removeAdapter_in. apply (HD (NObj x)). now apply Hch. }
    { unfold present. pose proof (filter_length_le (fun y => set_flag A (NObj x) false (NObj y)) D). lia. }
    exists A'. split; [exact E'|]. now apply shrunk_flag.
  Qed.
End Walk.
