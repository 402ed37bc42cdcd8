(** What is loaded from complete tables. *)
From Coq Require Import String Permutation.
From Verif Require Import Base Chars StrconvModel SqlSchemaModel SqlValueModel LiteralSpec SqlValueProofs SqlDocModel SqlDocSpec SqlDocProofs.
Local Open Scope list_scope.
Local Open Scope Z_scope.

(** ** changes *)
Section Changes.
  Context {D : Type}.
  Definition key (g : change D) : Z * nat := (g_id g, g_feature g).
  Definition answers (l : list (change D)) (i : Z) (f : nat) (v : option (list (loaded_item D))) : Prop :=
    forall ws, In (mkChange i f ws) l <-> v = Some ws.
  Definition block {A} (B : A -> nat -> Prop) (x : A) (l : list (change D)) : Prop :=
    NoDup (map key l) /\ forall g, In g l -> B x (g_feature g).

  Lemma collect_ok {A} (g : A -> option (list (change D))) (Q : A -> list (change D) -> Prop) xs :
    (forall x, In x xs -> exists l, g x = Some l /\ Q x l) -> exists ls, collect g xs = Some (concat ls) /\ Forall2 Q xs ls.
  Proof.
    induction xs as [|x xs IH]; intro H; [exists []; split; [reflexivity|constructor]|].
    destruct (H x (or_introl eq_refl)) as [l [E q]]. destruct IH as [ls [E' q']]; [intros y Hy; apply H; now right|].
    exists (l :: ls). cbn [collect concat]. rewrite E, E'. split; [reflexivity|now constructor].
  Qed.
  Lemma NoDup_app_keys (a b : list (change D)) : NoDup (map key a) -> NoDup (map key b) ->
    (forall g g', In g a -> In g' b -> key g <> key g') -> NoDup (map key (a ++ b)).
  Proof.
    intros Ha Hb H. induction a as [|g a IH]; [exact Hb|]. cbn [app map] in *. inversion Ha as [|? ? Hg Ha']; subst. constructor.
    - rewrite map_app, in_app_iff. intros [Q|Q]; [contradiction|]. apply in_map_iff in Q. destruct Q as [g' [Q1 Q2]].
      apply (H g g'); [now left|exact Q2|congruence].
    - apply IH; [exact Ha'|]. intros g1 g2 H1 H2. apply H; [now right|exact H2].
  Qed.
  Lemma concat_block {A} (B : A -> nat -> Prop) xs ls : NoDup xs -> Forall2 (block B) xs ls ->
    (forall x y f, B x f -> B y f -> In x xs -> In y xs -> x = y) ->
    NoDup (map key (concat ls)) /\ (forall g, In g (concat ls) -> exists x, In x xs /\ B x (g_feature g)).
  Proof.
    intros Hd F Hb. induction F as [|x l xs ls [N Bx] F IH]; [split; [constructor|intros g []]|].
    inversion Hd as [|? ? Hx Hd']; subst. destruct IH as [I1 I2]; [exact Hd'|intros; eapply Hb; eauto; now right|]. cbn [concat]. split.
    - apply NoDup_app_keys; auto. intros g g' Hg Hg' E. destruct (I2 _ Hg') as [y [Hy By]].
      assert (x = y) as ->; [|contradiction]. apply (Hb x y (g_feature g)); [now apply Bx| |now left|now right].
      unfold key in E. injection E as _ ->. exact By.
    - intros g Hg. apply in_app_iff in Hg. destruct Hg as [Hg|Hg]; [exists x; split; [now left|now apply Bx]|].
      destruct (I2 _ Hg) as [y [Hy By]]. exists y. split; [now right|exact By].
  Qed.
  Lemma concat_answers {A} (B : A -> nat -> Prop) (Q : A -> list (change D) -> Prop) xs ls : NoDup xs ->
    Forall2 (fun x l => block B x l /\ Q x l) xs ls ->
    (forall x y f, B x f -> B y f -> In x xs -> In y xs -> x = y) ->
    forall x, In x xs -> exists l, Q x l /\ forall i f v, B x f -> answers l i f v -> answers (concat ls) i f v.
  Proof.
    intros Hd F Hb. induction F as [|x l xs ls [[N Bx] q] F IH]; [intros x []|].
    inversion Hd as [|? ? Hx Hd']; subst.
    assert (forall y, In y xs -> y <> x) as Hne by (intros y Hy ->; contradiction).
    destruct (concat_block B xs ls Hd') as [_ I2].
    { clear - F. induction F as [|? ? ? ? [H _] F IH]; constructor; auto. }
    { intros; eapply Hb; eauto; now right. }
    intros y [<-|Hy].
    - exists l. split; [exact q|]. intros i f v Bf An ws. cbn [concat]. rewrite in_app_iff, <- (An ws). split; [|tauto].
      intros [H|H]; [exact H|]. destruct (I2 _ H) as [y [Hy By]]. exfalso. apply (Hne y Hy). symmetry.
      apply (Hb x y f); auto; [now left|now right].
    - destruct IH with (x := y) as [l' [q' A']]; auto. { intros; eapply Hb; eauto; now right. }
      exists l'. split; [exact q'|]. intros i f v Bf An ws. cbn [concat]. rewrite in_app_iff, <- (A' i f v Bf An ws). split; [|tauto].
      intros [H|H]; [|exact H]. exfalso. apply (Hne y Hy). apply (Hb y x f); auto; [exact (Bx _ H)|now right|now left].
  Qed.
End Changes.

(** ** rows in order *)
Section Rows.
  Context {C : Type}.
  Notation list_row := (@list_row C).
  Definition before (a b : list_row) : Prop := row_le a b = true.
  Lemma before_spec a b : before a b <-> t_id a < t_id b \/ t_id a = t_id b /\ t_idx a <= t_idx b.
  Proof. unfold before, row_le. rewrite orb_true_iff, andb_true_iff, Z.ltb_lt, Z.eqb_eq, Z.leb_le. reflexivity. Qed.
  Lemma before_trans a b c : before a b -> before b c -> before a c.
  Proof. rewrite !before_spec. lia. Qed.
  Inductive sorted : list list_row -> Prop :=
  | sorted_nil : sorted []
  | sorted_cons r l : (forall x, In x l -> before r x) -> sorted l -> sorted (r :: l).
  Lemma insert_in (r : list_row) l x : In x (insert r l) <-> x = r \/ In x l.
  Proof.
    induction l as [|y l IH]; cbn [insert]; [cbn; intuition auto|]. destruct (row_le r y); cbn [In]; [intuition auto|]. rewrite IH. intuition auto.
  Qed.
  Lemma insert_sorted (r : list_row) l : sorted l -> sorted (insert r l).
  Proof.
    induction 1 as [|y l Hy Hs IH]; cbn [insert]; [repeat constructor; intros ? []|]. destruct (row_le r y) eqn:E.
    - constructor; [|now constructor]. intros x [<-|Hx]; [exact E|]. eapply before_trans; [exact E|now apply Hy].
    - constructor; [|exact IH]. intros x Hx. apply insert_in in Hx. destruct Hx as [->|Hx]; [|now apply Hy].
      apply before_spec. unfold row_le in E. apply orb_false_iff in E. destruct E as [E1 E2]. apply andb_false_iff in E2.
      rewrite Z.ltb_ge in E1. rewrite Z.eqb_neq, Z.leb_gt in E2. lia.
  Qed.
  Lemma ordered_in (l : list list_row) x : In x (ordered l) <-> In x l.
  Proof. induction l as [|y l IH]; [reflexivity|]. cbn [ordered fold_right]. rewrite insert_in. fold (ordered l). rewrite IH. cbn. intuition auto. Qed.
  Lemma ordered_sorted (l : list list_row) : sorted (ordered l).
  Proof. induction l as [|y l IH]; [constructor|]. now apply insert_sorted. Qed.
  Lemma insert_front (r : list_row) l : (forall x, In x l -> before r x) -> insert r l = r :: l.
  Proof. destruct l as [|y l]; intro H; [reflexivity|]. cbn [insert]. now rewrite (H y (or_introl eq_refl)). Qed.
  Lemma filter_insert p (r : list_row) l : sorted l -> filter p (insert r l) = if p r then insert r (filter p l) else filter p l.
  Proof.
    induction 1 as [|y l Hy Hs IH]; cbn [insert]; [now cbn; destruct (p r)|]. destruct (row_le r y) eqn:E.
    - cbn [filter]. destruct (p r); [|reflexivity]. symmetry. apply insert_front. intros x Hx.
      assert (In x (y :: l)) as [<-|Q]; [|exact E|eapply before_trans; [exact E|now apply Hy]].
      destruct (p y); [destruct Hx as [<-|Hx]; [now left|right]|right]; now apply filter_In in Hx.
    - cbn [filter]. rewrite IH. destruct (p y), (p r); try reflexivity. cbn [insert]. now rewrite E.
  Qed.
  Lemma filter_ordered p (l : list list_row) : filter p (ordered l) = ordered (filter p l).
  Proof.
    induction l as [|r l IH]; [reflexivity|]. cbn [ordered fold_right]. fold (ordered l). rewrite filter_insert by apply ordered_sorted. rewrite IH.
    cbn [filter]. destruct (p r); reflexivity.
  Qed.
  Lemma ordered_id (l : list list_row) : sorted l -> ordered l = l.
  Proof. induction 1 as [|r l H Hs IH]; [reflexivity|]. cbn [ordered fold_right]. fold (ordered l). rewrite IH. now apply insert_front. Qed.
  Lemma number_sorted f i (cs : list (@column C)) : forall idx, sorted (number f i idx cs) /\ forall r, In r (number f i idx cs) -> t_id r = i /\ idx <= t_idx r.
  Proof.
    induction cs as [|c cs IH]; intro idx; cbn [number]; [split; [constructor|intros ? []]|]. destruct (IH (idx + 1)) as [I1 I2]. split.
    - constructor; [|exact I1]. intros x Hx. apply I2 in Hx. apply before_spec. cbn. lia.
    - intros r [<-|Hr]; [cbn; lia|]. apply I2 in Hr. lia.
  Qed.
End Rows.

Section Read.
  Context {D C : Type} (M : meta D C) (G : source D) (O : options).
  Variables (s : @state C) (d : db C).
  Notation n := (sid s).
  Notation features o := (all_features M (oclass G o)).
  Notation intended := (intended M G O).
  Hypothesis W : wf M G O s.
  Hypothesis Hall : forall o i, n o = Some i -> complete M G O s o i.
  Hypothesis Hd1 : objects d = objects (tables s).
  Hypothesis Hd2 : classes d = classes (tables s).
  Hypothesis Hd3 : lists d = lists (tables s).
  Hypothesis Hsmall : forall o i, n o = Some i -> i < 2 ^ 63.
  Hypothesis Hfits : forall o, n o <> None -> forall f, In f (features o) -> fits M G O o f.
  Hypothesis Hlinks : links_ok M G O n.
  Hypothesis P : proper M.

  Lemma find_known o i : n o = Some i -> exists r, find_object d i = Some r /\ r_class r = oclass G o /\ exists a b, r_columns r = columns_of G O o a b.
  Proof using W Hd1.
    intro H. unfold find_object. rewrite Hd1. destruct (w_has _ _ _ _ W _ _ H) as [r [H1 H2]].
    destruct (find (fun r => r_id r =? i) (objects (tables s))) as [r'|] eqn:E.
    - apply find_some in E. destruct E as [E1 E2]. apply Z.eqb_eq in E2. exists r'. split; [reflexivity|].
      destruct (w_obj _ _ _ _ W _ E1) as [o' [A [B Q]]]. rewrite E2 in A. assert (o' = o) as -> by exact (w_inj _ _ _ _ W _ _ _ A H). auto.
    - exfalso. apply find_none with (x := r) in E; [|exact H1]. apply Z.eqb_neq in E. contradiction.
  Qed.
  Lemma find_only i r : find_object d i = Some r -> exists o, n o = Some i.
  Proof using W Hd1.
    unfold find_object. rewrite Hd1. intro E. apply find_some in E. destruct E as [E1 E2]. apply Z.eqb_eq in E2.
    destruct (w_obj _ _ _ _ W _ E1) as [o [A _]]. exists o. congruence.
  Qed.

  Lemma decode_item o i f x c : n o = Some i -> In f (features o) -> fkind M f <> sfkTransient -> In x (intended o f) -> col_ok M G s i f x c ->
    exists y, decodeValue M d f c = Some y /\ item_restored M G n o f x y /\ y <> LNil.
  Proof using W Hall Hd1 Hd2 Hd3 Hsmall Hfits Hlinks P.
    intros Ho Hf Ht Hx Hc. assert (n o <> None) as Hne by congruence. destruct (Hfits o Hne f Hf) as [_ [F2 [F3 _]]].
    assert (forall t k, n t = Some k -> exists y, match find_object d k with Some _ => Some (LObj k) | None => None end = Some y /\
              item_restored M G n o f (IObj t) y /\ y <> LNil) as Hloc.
    { intros t k H. destruct (find_known t k H) as [r [Q _]]. rewrite Q. exists (LObj k). split; [reflexivity|]. split; [left; now exists k|discriminate]. }
    assert (holds_links M f -> forall t, x = IObj t ->
       ((exists k, n t = Some k /\ c = CText (encodeReference k (uri G t))) \/ ((forall k, n t = Some k -> i < k) /\ c = CText (encodeReference 0 (uri G t)))) ->
       exists y, match c with
          | CNull => Some LNil
          | CText t =>
              match decodeReference t with
              | NoTarget => Some LNil
              | Local i => match find_object d i with Some _ => Some (LObj i) | None => None end
              | Proxy u => if abstract M (ftarget M f) then None else Some (LProxy (ftarget M f) u)
              end
          | _ => None
          end = Some y /\ item_restored M G n o f x y /\ y <> LNil) as Href.
    { intros Hk t -> [[k [H ->]]|[H ->]].
      - pose proof (w_range _ _ _ _ W _ _ H) as R. pose proof (Hsmall _ _ H) as R'.
        destruct (reference_round_trip k (uri G t)) as [E _]. { unfold signed. cbn. lia. } rewrite E by lia. now apply Hloc.
      - destruct (Hlinks o f t Hne Hf Hk Hx) as [[i' [k [A [B L]]]]|[U1 [U2 U3]]].
        + exfalso. specialize (H _ B). assert (i' = i) as -> by congruence. lia.
        + destruct (reference_round_trip 0 (uri G t)) as [_ E]. { unfold signed. cbn. lia. } rewrite E by auto. rewrite U3.
          eexists. split; [reflexivity|]. split; [|discriminate]. right. split; [exact Hk|]. split; [|reflexivity].
          intros [i' [k [A [B L]]]]. specialize (H _ B). assert (i' = i) as -> by congruence. lia. }
    assert (holds_values M f -> c = match x with IData d => CData (cell M f d) | IObj _ => CNull end -> exists y, 
          match c with
          | CNull => Some (match null_value M f with Some v => LData v | None => LNil end)
          | CData x => match uncell M f x with Some v => Some (LData v) | None => None end
          | _ => None
          end = Some y /\ item_restored M G n o f x y /\ y <> LNil) as Hval.
    { intros Hk ->. destruct (F3 Hk x Hx) as [v [-> U]]. rewrite U. eexists. split; [reflexivity|]. split; [reflexivity|discriminate]. }
    assert (holds_objects M f \/ holds_links M f -> exists t, x = IObj t) as Hobj by (intro Q; now apply F2).
    unfold col_ok in Hc. unfold decodeValue. unfold holds_values, holds_objects, holds_links in *.
    destruct (fkind M f) eqn:K; try contradiction;
      try (apply Hval; [split; [intros [Q|Q]; discriminate Q|split; [intros [Q|Q]; discriminate Q|discriminate]]|destruct x; exact Hc]).
    - destruct Hobj as [t ->]; [auto|]. destruct Hc as [k [H ->]]. now apply Hloc.
    - destruct Hobj as [t ->]; [auto|]. destruct Hc as [k [H ->]]. now apply Hloc.
    - destruct Hobj as [t ->]; [auto|]. apply (Href (or_introl eq_refl) t eq_refl Hc).
    - destruct Hobj as [t ->]; [auto|]. apply (Href (or_intror eq_refl) t eq_refl Hc).
  Qed.

  Lemma single_column f : is_column (fkind M f) = true <-> single M f /\ fkind M f <> sfkTransient.
  Proof using. unfold single. destruct (fkind M f); cbn; intuition congruence. Qed.
  Lemma table_single f : is_table (fkind M f) = true <-> ~ single M f.
  Proof using. unfold single. destruct (fkind M f); cbn; intuition congruence. Qed.

  (** ** columns *)
  Lemma decode_cell o i p : n o = Some i -> In (fst p) (features o) -> is_column (fkind M (fst p)) = true -> cell_ok M G O s o i p ->
    exists y, decodeValue M d (fst p) (snd p) = Some y /\
      feature_restored M G O n o (fst p) (match y with LNil => None | _ => Some [y] end).
  Proof using W Hall Hd1 Hd2 Hd3 Hsmall Hfits Hlinks P.
    intros Ho Hf Hc Hp. apply single_column in Hc. destruct Hc as [Hs Ht]. unfold cell_ok in Hp. unfold feature_restored.
    destruct (intended o (fst p)) as [|x l] eqn:E.
    - rewrite Hp. unfold decodeValue. unfold holds_objects, holds_links, holds_values in *. destruct (fkind M (fst p)) eqn:K; try contradiction;
        try (eexists; split; [reflexivity|]; right; right; split; [|split; [exact Hs|now destruct (null_value M (fst p))]];
             unfold holds_objects, holds_links; rewrite K; intuition congruence);
        (eexists; split; [reflexivity|]; right; left; split; [auto|reflexivity]).
    - assert (l = []) as ->.
      { destruct (Hfits o) with (f := fst p) as [F1 _]; [congruence|exact Hf|]. specialize (F1 Hs). rewrite E in F1. cbn in F1. destruct l; [reflexivity|cbn in F1; lia]. }
      destruct (decode_item o i (fst p) x (snd p) Ho Hf Ht) as [y [A [B Q]]]; [rewrite E; now left|exact Hp|].
      exists y. split; [exact A|]. right. exists [y]. split; [now destruct y|]. constructor; [exact B|constructor].
  Qed.

  Lemma decode_columns o i : n o = Some i -> forall cols, NoDup (map fst cols) ->
    (forall f, In f (map fst cols) -> In f (features o) /\ is_column (fkind M f) = true) -> Forall (cell_ok M G O s o i) cols ->
    exists l, decodeColumns M d i cols = Some l /\ NoDup (map key l) /\
      (forall g, In g l -> g_id g = i /\ In (g_feature g) (map fst cols)) /\
      forall f, In f (map fst cols) -> exists v, feature_restored M G O n o f v /\ answers l i f v.
  Proof using W Hall Hd1 Hd2 Hd3 Hsmall Hfits Hlinks P.
    intro Ho. induction cols as [|[f c] cols IH]; intros Hn Hf Hc.
    - exists []. split; [reflexivity|]. split; [constructor|]. split; [intros g []|intros f []].
    - cbn [map fst] in *. inversion Hn as [|? ? Hnf Hn']; subst. inversion Hc as [|? ? Hc1 Hc2]; subst.
      destruct IH as [l [E [N [B A]]]]; auto; [intros f0 Hf0; apply Hf; now right|]. destruct (Hf f (or_introl eq_refl)) as [Hf1 Hf2].
      destruct (decode_cell o i (f, c) Ho Hf1 Hf2 Hc1) as [y [Ey Ry]]. cbn [fst snd] in Ey, Ry. cbn [decodeColumns].
      rewrite Ey, E.
      assert (forall ws, ~ In (mkChange i f ws) l) as Hno by (intros ws Q; apply B in Q; apply Hnf, Q).
      destruct (match y with LNil => true | _ => false end) eqn:Z.
      + exists l. destruct y; try discriminate. split; [reflexivity|]. split; [exact N|]. split; [intros g Hg; apply B in Hg; split; [apply Hg|right; apply Hg]|].
        intros f' [<-|Hf']; [|now apply A]. exists None. split; [exact Ry|]. intro ws. split; [intro Q; now apply Hno in Q|discriminate].
      + exists (mkChange i f [y] :: l). split; [now destruct y|]. split; [|split].
        * cbn [map]. constructor; [|exact N]. intro Q. apply in_map_iff in Q. destruct Q as [[j f' ws] [Q1 Q2]]. unfold key in Q1. cbn in Q1.
          injection Q1 as -> ->. now apply Hno in Q2.
        * intros g [<-|Hg]; [split; [reflexivity|now left]|]. apply B in Hg. split; [apply Hg|right; apply Hg].
        * intros f' [<-|Hf'].
          -- exists (Some [y]). split; [now destruct y|]. intro ws. split; [intros [Q|Q]; [congruence|now apply Hno in Q]|]. intro Q. left. congruence.
          -- destruct (A f' Hf') as [v [R An]]. exists v. split; [exact R|]. intro ws. rewrite <- (An ws). split; [|now right].
             intros [Q|Q]; [|exact Q]. injection Q as -> _. contradiction.
  Qed.

  Definition row_good (c : nat) (r : @class_row C) : Prop :=
    exists o, n o = Some (c_id r) /\ In c (hierarchy M (oclass G o)) /\ cols_ok M G O s o (c_id r) (own M c) (c_columns r).
  Lemma decode_rows c : forall rs, NoDup (map c_id rs) -> Forall (row_good c) rs ->
    exists l, decodeRows M d rs = Some l /\ NoDup (map key l) /\
      (forall g, In g l -> In (g_id g) (map c_id rs) /\ In (g_feature g) (own M c) /\ is_column (fkind M (g_feature g)) = true) /\
      forall o i f, n o = Some i -> In i (map c_id rs) -> In f (own M c) -> is_column (fkind M f) = true ->
        exists v, feature_restored M G O n o f v /\ answers l i f v.
  Proof using W Hall Hd1 Hd2 Hd3 Hsmall Hfits Hlinks P.
    induction rs as [|r rs IH]; intros Hn Hr.
    - exists []. split; [reflexivity|]. split; [constructor|]. split; [intros g []|intros o i f _ []].
    - cbn [map] in *. inversion Hn as [|? ? Hnr Hn']; subst. inversion Hr as [|? ? Hr1 Hr2]; subst.
      destruct IH as [l' [E' [N' [B' A']]]]; auto. destruct Hr1 as [o [Ho [Hc [K1 K2]]]].
      assert (forall f, In f (map fst (c_columns r)) <-> In f (own M c) /\ is_column (fkind M f) = true) as Hin.
      { intro f. rewrite K1, filter_In. reflexivity. }
      destruct (decode_columns o (c_id r) Ho (c_columns r)) as [l [E [N [B A]]]]; auto.
      { rewrite K1. apply NoDup_filter, (p_own _ P). }
      { intros f Q. apply Hin in Q. split; [apply in_flat_map; exists c; tauto|apply Q]. }
      destruct (find_known o (c_id r) Ho) as [q [Q _]].
      exists (l ++ l'). cbn [decodeRows]. rewrite Q, E, E'. split; [reflexivity|]. split; [|split].
      + apply NoDup_app_keys; auto. intros g g' Hg Hg' K. apply B in Hg. apply B' in Hg'. unfold key in K. injection K as K _.
        apply Hnr. rewrite <- (proj1 Hg), K. apply Hg'.
      + intros g Hg. apply in_app_iff in Hg. destruct Hg as [Hg|Hg].
        * apply B in Hg. destruct Hg as [H1 H2]. apply Hin in H2. split; [now left|exact H2].
        * apply B' in Hg. split; [right; apply Hg|apply Hg].
      + intros o' i f Ho' Hi Hf Hcol. destruct (Z.eq_dec (c_id r) i) as [<-|Hne].
        * assert (o' = o) as -> by exact (w_inj _ _ _ _ W _ _ _ Ho' Ho). destruct (A f) as [v [R An]]; [now apply Hin|].
          exists v. split; [exact R|]. intro ws. rewrite <- (An ws), in_app_iff. split; [|tauto]. intros [H|H]; [exact H|].
          apply B' in H. exfalso. now apply Hnr.
        * destruct Hi as [Hi|Hi]; [contradiction|]. destruct (A' o' i f Ho' Hi Hf Hcol) as [v [R An]].
          exists v. split; [exact R|]. intro ws. rewrite <- (An ws), in_app_iff. split; [|tauto]. intros [H|H]; [|exact H].
          apply B in H. cbn in H. exfalso. apply Hne. symmetry. apply H.
  Qed.

  Lemma unique_keys {A} (k : A -> Z) : forall l, (forall j, (length (filter (fun r => (k r =? j)%Z) l) <= 1)%nat) -> NoDup (map k l).
  Proof using.
    clear. induction l as [|x l IH]; intro H; [constructor|]. cbn [map]. constructor.
    - intro Q. apply in_map_iff in Q. destruct Q as [y [Q1 Q2]]. specialize (H (k x)). cbn [filter] in H. rewrite Z.eqb_refl in H. cbn [length] in H.
      assert (In y (filter (fun r => k r =? k x) l)) as Hy by (apply filter_In; split; [exact Q2|now apply Z.eqb_eq]).
      destruct (filter (fun r => k r =? k x) l); [destruct Hy|cbn in H; lia].
    - apply IH. intro j. specialize (H j). cbn [filter] in H. destruct (k x =? j); cbn [length] in H; lia.
  Qed.
  Lemma filter_filter {A} (p q : A -> bool) l : filter p (filter q l) = filter (fun x => q x && p x) l.
  Proof using. clear. induction l as [|x l IH]; [reflexivity|]. cbn [filter]. destruct (q x); cbn [filter andb]; rewrite IH; reflexivity. Qed.

  Lemma class_rows c : let rs := filter (fun r => Nat.eqb (c_class r) c) (classes d) in
    NoDup (map c_id rs) /\ Forall (row_good c) rs /\
    forall o i, n o = Some i -> In c (hierarchy M (oclass G o)) -> In i (map c_id rs).
  Proof using W Hall Hd1 Hd2 Hd3 Hsmall Hfits Hlinks P.
    cbv zeta. rewrite Hd2.
    assert (forall r, In r (classes (tables s)) -> c_class r = c -> exists o cols, n o = Some (c_id r) /\ In c (hierarchy M (oclass G o)) /\
              crow s c (c_id r) = [mkR c (c_id r) cols] /\ cols_ok M G O s o (c_id r) (own M c) cols) as K.
    { intros r Hr Hc. destruct (w_cls _ _ _ _ W _ Hr) as [o [Ho Hh]]. rewrite Hc in Hh.
      destruct (proj1 (Hall _ _ Ho) c Hh) as [cols [Q1 Q2]]. exists o, cols. auto. }
    split; [|split].
    - apply unique_keys. intro j. rewrite filter_filter. change (filter _ _) with (crow s c j).
      destruct (crow s c j) as [|r l] eqn:E; [cbn; lia|].
      assert (In r (crow s c j)) as Hr by (rewrite E; now left). apply filter_In in Hr. destruct Hr as [H1 H2]. apply andb_true_iff in H2.
      destruct H2 as [H2 H3]. apply Nat.eqb_eq in H2. apply Z.eqb_eq in H3. destruct (K r H1 H2) as [o [cols [_ [_ [Q _]]]]].
      rewrite H3 in Q. rewrite E in Q. injection Q as _ ->. cbn. lia.
    - apply Forall_forall. intros r Hr. apply filter_In in Hr. destruct Hr as [H1 H2]. apply Nat.eqb_eq in H2.
      destruct (K r H1 H2) as [o [cols [Ho [Hh [Q1 Q2]]]]]. exists o. split; [exact Ho|]. split; [exact Hh|].
      assert (In r (crow s c (c_id r))) as Hr by (apply filter_In; split; [exact H1|]; rewrite H2, Nat.eqb_refl, Z.eqb_refl; reflexivity).
      rewrite Q1 in Hr. destruct Hr as [<-|[]]. exact Q2.
    - intros o i Ho Hh. destruct (proj1 (Hall _ _ Ho) c Hh) as [cols [Q1 Q2]].
      assert (In (mkR c i cols) (crow s c i)) as Hr by (rewrite Q1; now left). apply filter_In in Hr. destruct Hr as [H1 H2].
      apply in_map_iff. exists (mkR c i cols). split; [reflexivity|]. apply filter_In. split; [exact H1|]. cbn. apply Nat.eqb_refl.
  Qed.

  (** ** tables *)
  Definition decf (f : nat) (r : @list_row C) : loaded_item D := match decodeValue M d f (t_value r) with Some y => y | None => LNil end.
  Notation of_id j := (fun r : @list_row C => t_id r =? j).

  Lemma scan_ok f : forall rs id vs, sorted rs -> 1 <= id -> vs <> [] -> (forall r, In r rs -> id <= t_id r) ->
    (forall r, In r rs -> decodeValue M d f (t_value r) <> None /\ find_object d (t_id r) <> None) -> find_object d id <> None ->
    exists l, scan M d f id vs rs = Some l /\ NoDup (map key l) /\
      (forall g, In g l -> g_feature g = f /\ id <= g_id g) /\
      forall j, answers l j f (match (if j =? id then vs else []) ++ map (decf f) (filter (of_id j) rs) with [] => None | ws => Some ws end).
  Proof using.
    clear Hall Hsmall Hfits Hlinks W P Hd1 Hd2 Hd3.
    induction rs as [|r rs IH]; intros id vs Hs Hid Hvs Hge Hdec Hfind; cbn [scan].
    - replace (id =? -1) with false by lia. unfold decodeFeatureList. destruct vs as [|v vs]; [contradiction|].
      destruct (find_object d id); [|contradiction]. eexists. split; [reflexivity|]. split; [repeat constructor; intros []|].
      split; [intros g [<-|[]]; cbn; split; [reflexivity|lia]|].
      intros j ws. cbn [filter map]. rewrite app_nil_r. destruct (Z.eqb_spec j id) as [->|Hj].
      + split; [intros [Q|[]]; congruence|intro Q; left; congruence].
      + split; [intros [Q|[]]; congruence|discriminate].
    - inversion Hs as [|? ? Hb Hs']; subst. destruct (Hdec r (or_introl eq_refl)) as [Hd1' Hd2'].
      assert (decodeValue M d f (t_value r) = Some (decf f r)) as Ev by (unfold decf; now destruct (decodeValue M d f (t_value r))).
      rewrite Ev. replace (id =? -1) with false by lia. cbn [orb]. pose proof (Hge r (or_introl eq_refl)) as Hr.
      assert (forall x, In x rs -> t_id r <= t_id x) as Hge' by (intros x Hx; apply Hb in Hx; apply before_spec in Hx; lia).
      destruct (Z.eqb_spec id (t_id r)) as [E|E].
      + destruct (IH (t_id r) (vs ++ [decf f r])) as [l [E1 [N [B A]]]]; auto; try lia.
        { intro Q. apply app_eq_nil in Q. destruct Q; discriminate. }
        { intros x Hx. apply Hdec. now right. }
        exists l. split; [exact E1|]. split; [exact N|]. split; [intros g Hg; apply B in Hg; lia|]. intro j. specialize (A j).
        cbn [filter]. rewrite <- E in A. rewrite (Z.eqb_sym (t_id r) j), <- E. destruct (j =? id); [|exact A].
        cbn [map]. rewrite <- app_assoc in A. exact A.
      + destruct (IH (t_id r) [decf f r]) as [l [E1 [N [B A]]]]; auto; try lia; try discriminate.
        { intros x Hx. apply Hdec. now right. }
        unfold decodeFeatureList. destruct vs as [|v vs]; [contradiction|]. destruct (find_object d id); [|contradiction]. rewrite E1.
        eexists. split; [reflexivity|]. split; [|split].
        * cbn [app map]. constructor; [|exact N]. intro Q. apply in_map_iff in Q. destruct Q as [g [Q1 Q2]]. apply B in Q2.
          unfold key in Q1. cbn in Q1. injection Q1 as Q1 _. lia.
        * intros g [<-|Hg]; [cbn; split; [reflexivity|lia]|]. apply B in Hg. split; [apply Hg|lia].
        * intros j. specialize (A j). destruct (Z.eqb_spec j id) as [->|Hj].
          -- rewrite (filter_nil_all (of_id id) (r :: rs)). 2:{ intros x [<-|Hx]; [lia|]. apply Hge' in Hx. lia. }
             intro ws. cbn [map app]. rewrite app_nil_r. split; [|intro Q; left; congruence]. intros [Q|Q]; [congruence|].
             apply B in Q. cbn in Q. lia.
          -- intro ws. cbn [app In]. rewrite (A ws). cbn [filter]. rewrite (Z.eqb_sym (t_id r) j). destruct (Z.eqb_spec j (t_id r)); cbn [map app].
             ++ split; [intros [Q|Q]; [congruence|exact Q]|auto].
             ++ split; [intros [Q|Q]; [congruence|exact Q]|auto].
  Qed.

  Definition read_as (o f : nat) (x : item D) (r : @list_row C) : Prop :=
    decodeValue M d f (t_value r) = Some (decf f r) /\ item_restored M G n o f x (decf f r).
  Lemma table_items o i f : n o = Some i -> In f (features o) -> fkind M f <> sfkTransient ->
    forall l0 cs idx, incl l0 (intended o f) -> Forall2 (col_ok M G s i f) l0 cs -> Forall2 (read_as o f) l0 (number f i idx cs).
  Proof using W Hall Hd1 Hd2 Hd3 Hsmall Hfits Hlinks P.
    intros Ho Hf Ht l0 cs idx Hi F. revert idx. induction F as [|x c l0 cs Hc F IH]; intro idx; cbn [number]; constructor.
    - destruct (decode_item o i f x c Ho Hf Ht) as [y [A [B _]]]; [apply Hi; now left|exact Hc|]. unfold read_as, decf. cbn [t_value]. rewrite A. auto.
    - apply IH. intros y Hy. apply Hi. now right.
  Qed.

  Lemma decode_table f : is_table (fkind M f) = true ->
    exists l, decodeTable M d f = Some l /\ NoDup (map key l) /\ (forall g, In g l -> g_feature g = f) /\
      forall o i, n o = Some i -> In f (features o) -> exists v, feature_restored M G O n o f v /\ answers l i f v.
  Proof using W Hall Hd1 Hd2 Hd3 Hsmall Hfits Hlinks P.
    intro Ht. assert (fkind M f <> sfkTransient) as Htr by (intro Q; rewrite Q in Ht; discriminate).
    unfold decodeTable. rewrite Hd3. set (R := filter (fun r => Nat.eqb (t_feature r) f) (lists (tables s))).
    assert (forall j, filter (of_id j) R = lrow s f j) as HR by (intro j; unfold R; rewrite filter_filter; reflexivity).
    assert (forall o i, n o = Some i -> In f (features o) -> filter (of_id i) (ordered R) = lrow s f i /\
              Forall2 (read_as o f) (intended o f) (lrow s f i)) as K2.
    { intros o i Ho Hf. destruct (proj2 (Hall _ _ Ho) f Hf Ht) as [cs [E F]]. rewrite filter_ordered, HR, E.
      split; [apply ordered_id, number_sorted|]. apply table_items; auto. apply incl_refl. }
    assert (forall r, In r (ordered R) -> exists o, n o = Some (t_id r) /\ In f (features o)) as K3.
    { intros r Hr. apply ordered_in, filter_In in Hr. destruct Hr as [H1 H2]. apply Nat.eqb_eq in H2.
      destruct (w_lst _ _ _ _ W _ H1) as [o [Ho Hf]]. exists o. rewrite <- H2. auto. }
    assert (forall r, In r (ordered R) -> 1 <= t_id r /\ decodeValue M d f (t_value r) = Some (decf f r) /\ find_object d (t_id r) <> None) as K4.
    { intros r Hr. destruct (K3 r Hr) as [o [Ho Hf]]. split; [apply (w_range _ _ _ _ W) in Ho; lia|]. split.
      - destruct (K2 _ _ Ho Hf) as [E F]. assert (In r (lrow s f (t_id r))) as Hin.
        { rewrite <- E. apply filter_In. split; [exact Hr|apply Z.eqb_refl]. }
        clear - F Hin. induction F as [|x y l1 l2 [H1 H2] F IH]; [destruct Hin|]. destruct Hin as [->|Hin]; auto.
      - destruct (find_known _ _ Ho) as [q [Q _]]. congruence. }
    assert (exists l, scan M d f (-1) [] (ordered R) = Some l /\ NoDup (map key l) /\ (forall g, In g l -> g_feature g = f) /\
              forall j, answers l j f (match map (decf f) (filter (of_id j) (ordered R)) with [] => None | ws => Some ws end)) as [l [E [N [B A]]]].
    { pose proof (ordered_sorted R) as Hs. destruct (ordered R) as [|r rs] eqn:Er.
      - exists []. split; [reflexivity|]. split; [constructor|]. split; [intros g []|]. intros j ws. cbn. split; [intros []|discriminate].
      - cbn [scan]. destruct (K4 r (or_introl eq_refl)) as [Hr1 [Hr2 Hr3]]. rewrite Hr2. cbn [Z.eqb orb Pos.eqb app].
        inversion Hs as [|? ? Hb Hs']; subst.
        destruct (scan_ok f rs (t_id r) [decf f r] Hs' Hr1) as [l [E [N [B A]]]]; auto; try discriminate.
        { intros x Hx. apply Hb, before_spec in Hx. lia. }
        { intros x Hx. destruct (K4 x (or_intror Hx)) as [_ [Q1 Q2]]. split; [congruence|exact Q2]. }
        exists l. split; [exact E|]. split; [exact N|]. split; [intros g Hg; now apply B in Hg|].
        intro j. specialize (A j). cbn [filter]. rewrite (Z.eqb_sym (t_id r) j). destruct (j =? t_id r); exact A. }
    exists l. split; [exact E|]. split; [exact N|]. split; [exact B|]. intros o i Ho Hf. eexists. split; [|apply A].
    destruct (K2 o i Ho Hf) as [E2 F]. rewrite E2. unfold feature_restored.
    destruct F as [|x r xs rs [H1 H2] F].
    - right. left. split; [right; right; now apply table_single|reflexivity].
    - right. eexists. split; [reflexivity|]. cbn [map]. constructor; [exact H2|].
      clear - F. induction F as [|y q ys qs [H1 H2] F IH]; constructor; auto.
  Qed.

  (** ** all features *)
  Lemma decode_class c : exists l, decodeClassFeatures M d c = Some l /\ NoDup (map key l) /\
      (forall g, In g l -> In (g_feature g) (own M c)) /\
      forall o i f, n o = Some i -> In c (hierarchy M (oclass G o)) -> In f (own M c) -> exists v, feature_restored M G O n o f v /\ answers l i f v.
  Proof using W Hall Hd1 Hd2 Hd3 Hsmall Hfits Hlinks P.
    unfold decodeClassFeatures. set (ts := filter (fun f => is_table (fkind M f)) (own M c)).
    assert (forall o f, In c (hierarchy M (oclass G o)) -> In f (own M c) -> In f (features o)) as Hin.
    { intros o f H1 H2. apply in_flat_map. now exists c. }
    assert (NoDup ts) as Nts by apply NoDup_filter, (p_own _ P).
    set (Q := fun f (l : list (change D)) => forall o i, n o = Some i -> In f (features o) -> exists v, feature_restored M G O n o f v /\ answers l i f v).
    destruct (collect_ok (decodeTable M d) (fun f l => block eq f l /\ Q f l) ts) as [ls [E F]].
    { intros f Hf. apply filter_In in Hf. destruct (decode_table f (proj2 Hf)) as [l [E [N [B A]]]]. exists l. split; [exact E|]. split; [|exact A].
      split; [exact N|]. intros g Hg. symmetry. now apply B. }
    destruct (concat_block eq ts ls Nts) as [N1 B1]; [clear - F; induction F as [|? ? ? ? [H _] F IH]; constructor; auto|congruence|].
    pose proof (concat_answers eq Q ts ls Nts F ltac:(congruence)) as A1. rewrite E.
    assert (forall g, In g (concat ls) -> In (g_feature g) (own M c) /\ is_table (fkind M (g_feature g)) = true) as B1'.
    { intros g Hg. destruct (B1 g Hg) as [x [Hx ->]]. now apply filter_In in Hx. }
    destruct (class_rows c) as [C1 [C2 C3]].
    destruct (decode_rows c _ C1 C2) as [l2 [E2 [N2 [B2 A2]]]].
    assert (exists l, match filter (fun f => is_column (fkind M f)) (own M c) with
          | [] => Some (concat ls)
          | _ => match decodeRows M d (filter (fun r => Nat.eqb (c_class r) c) (classes d)) with
                 | Some l' => Some (concat ls ++ l')
                 | None => None
                 end
          end = Some l /\ (l = concat ls ++ l2 \/ filter (fun f => is_column (fkind M f)) (own M c) = [] /\ l = concat ls)) as [l [El Hl]].
    { rewrite E2. destruct (filter (fun f => is_column (fkind M f)) (own M c)) eqn:K; eexists; (split; [reflexivity|]); auto. }
    exists l. split; [exact El|]. clear El.
    assert (forall f, is_table (fkind M f) = true -> is_column (fkind M f) = false) as Hex by (intro f; destruct (fkind M f); cbn; congruence).
    split; [|split].
    - destruct Hl as [->|[_ ->]]; [|exact N1]. apply NoDup_app_keys; auto. intros g g' Hg Hg' K. apply B1' in Hg. apply B2 in Hg'.
      unfold key in K. injection K as _ K. destruct Hg as [_ Hg]. destruct Hg' as [_ [_ Hg']]. rewrite <- K, Hex in Hg' by exact Hg. discriminate.
    - intros g Hg. assert (In g (concat ls ++ l2)) as Hg' by (destruct Hl as [->|[_ ->]]; [exact Hg|apply in_app_iff; now left]).
      apply in_app_iff in Hg'. destruct Hg' as [Hg'|Hg']; [now apply B1'|now apply B2].
    - intros o i f Ho Hc Hf. destruct (is_table (fkind M f)) eqn:Kt; [|destruct (is_column (fkind M f)) eqn:Kc].
      + destruct (A1 f) as [lf [Qf Af]]; [apply filter_In; auto|]. destruct (Qf o i Ho (Hin o f Hc Hf)) as [v [R An]].
        exists v. split; [exact R|]. specialize (Af i f v eq_refl An). intro ws. rewrite <- (Af ws).
        destruct Hl as [->|[_ ->]]; [|reflexivity]. rewrite in_app_iff. split; [|tauto]. intros [H|H]; [exact H|].
        apply B2 in H. cbn in H. destruct H as [_ [_ H]]. rewrite Hex in H by exact Kt. discriminate.
      + destruct Hl as [->|[K _]]. 2:{ exfalso. assert (In f []) as []. rewrite <- K. apply filter_In. auto. }
        destruct (A2 o i f Ho (C3 o i Ho Hc) Hf Kc) as [v [R An]]. exists v. split; [exact R|]. intro ws. rewrite <- (An ws), in_app_iff.
        split; [|tauto]. intros [H|H]; [|exact H]. apply B1' in H. cbn in H. destruct H as [_ H]. congruence.
      + exists None. split.
        * unfold feature_restored. assert (fkind M f = sfkTransient) as K by (destruct (fkind M f); cbn in *; congruence).
          destruct (intended o f); left; auto.
        * intro ws. split; [|discriminate]. intro H. exfalso. destruct Hl as [->|[_ ->]]; [apply in_app_iff in H; destruct H as [H|H]|].
          -- apply B1' in H. cbn in H. destruct H. congruence.
          -- apply B2 in H. cbn in H. destruct H as [_ [_ H]]. congruence.
          -- apply B1' in H. cbn in H. destruct H. congruence.
  Qed.

  Lemma decode_features : exists gs, decodeFeatures M d = Some gs /\ NoDup (map key gs) /\
      forall o i f, n o = Some i -> In f (features o) -> exists v, feature_restored M G O n o f v /\ answers gs i f v.
  Proof using W Hall Hd1 Hd2 Hd3 Hsmall Hfits Hlinks P.
    unfold decodeFeatures. set (cs := nodup _ _).
    assert (NoDup cs) as Ncs by apply NoDup_nodup.
    set (B := fun c f => In f (own M c)).
    set (Q := fun c (l : list (change D)) => forall o i f, n o = Some i -> In c (hierarchy M (oclass G o)) -> In f (own M c) -> exists v, feature_restored M G O n o f v /\ answers l i f v).
    assert (forall x y f, B x f -> B y f -> In x cs -> In y cs -> x = y) as Hb by (intros x y f H1 H2 _ _; exact (p_owner _ P _ _ _ H1 H2)).
    destruct (collect_ok (decodeClassFeatures M d) (fun c l => block B c l /\ Q c l) cs) as [ls [E F]].
    { intros c _. destruct (decode_class c) as [l [E [N [Bc A]]]]. exists l. split; [exact E|]. split; [split; [exact N|exact Bc]|exact A]. }
    exists (concat ls). split; [exact E|]. split.
    - apply (concat_block B cs); auto. clear - F. induction F as [|? ? ? ? [H _] F IH]; constructor; auto.
    - intros o i f Ho Hf. apply in_flat_map in Hf. destruct Hf as [c [Hc Hf]].
      assert (In c cs) as Hcs.
      { apply nodup_In, in_flat_map. destruct (find_known o i Ho) as [r [H1 [H2 _]]]. exists r. split; [now apply find_some in H1|]. now rewrite H2. }
      destruct (concat_answers B Q cs ls Ncs F Hb c Hcs) as [l [q A]]. destruct (q o i f Ho Hc Hf) as [v [R An]]. exists v. auto.
  Qed.

  (** ** setting them *)
  Definition adjusted (f : nat) (ws : list (loaded_item D)) := if is_table (fkind M f) && funique M f then once M [] ws else ws.
  Lemma fold_apply i f : forall gs v v0, NoDup (map key gs) -> answers gs i f v ->
    fold_left (apply M) gs v0 i f = match v with Some ws => Some (adjusted f ws) | None => v0 i f end.
  Proof using.
    clear. induction gs as [|[j f' ws] gs IH]; intros v v0 N A.
    - destruct v as [ws|]; [|reflexivity]. destruct (proj2 (A ws) eq_refl).
    - cbn [fold_left map] in *. inversion N as [|? ? Hk N']; subst. unfold key in Hk. cbn in Hk.
      destruct (Z.eqb_spec i j) as [->|Hj]; [destruct (Nat.eqb_spec f f') as [->|Hf]|].
      + assert (v = Some ws) as -> by (apply A; now left).
        rewrite (IH None).
        * unfold apply. cbn [g_id g_feature g_values]. rewrite Z.eqb_refl, Nat.eqb_refl. reflexivity.
        * exact N'.
        * intro us. split; [|discriminate]. intro Q. exfalso. apply Hk. apply in_map_iff. eexists. split; [|exact Q]. reflexivity.
      + rewrite (IH v); [|exact N'|].
        * unfold apply at 1. cbn [g_id g_feature]. destruct (Nat.eqb_spec f f'); [contradiction|]. rewrite andb_false_r. reflexivity.
        * intro us. rewrite <- (A us). cbn [In]. split; [auto|]. intros [Q|Q]; [congruence|exact Q].
      + rewrite (IH v); [|exact N'|].
        * unfold apply at 1. cbn [g_id g_feature]. destruct (Z.eqb_spec i j); [contradiction|]. reflexivity.
        * intro us. rewrite <- (A us). cbn [In]. split; [auto|]. intros [Q|Q]; [congruence|exact Q].
  Qed.

  Hypothesis Heq : exact_equality M.
  Lemma once_same o f : (forall t t' k, n t = Some k -> n t' = Some k -> t = t') ->
    forall xs ys seen sx, NoDup (sx ++ xs) -> Forall2 (item_restored M G n o f) sx seen -> Forall2 (item_restored M G n o f) xs ys -> once M seen ys = ys.
  Proof using Heq.
    intros Hinj xs ys seen sx N Fs F. revert seen sx N Fs. induction F as [|x y xs ys Hxy F IH]; intros seen sx N Fs; [reflexivity|]. cbn [once].
    assert (existsb (same M y) seen = false) as ->.
    { apply not_true_iff_false. intro Q. apply existsb_exists in Q. destruct Q as [z [Hz Q]].
      assert (exists w, In w sx /\ item_restored M G n o f w z) as [w [Hw Rw]].
      { clear - Fs Hz. induction Fs as [|a b l1 l2 H Fs IH]; [destruct Hz|]. destruct Hz as [->|Hz]; [exists a; split; [now left|exact H]|].
        destruct (IH Hz) as [w [H1 H2]]. exists w. split; [now right|exact H2]. }
      assert (w = x) as ->.
      { destruct x as [v|t], w as [v'|t']; cbn [item_restored] in Hxy, Rw.
        - subst. cbn in Q. apply Heq in Q. congruence.
        - subst. destruct Rw as [[k [_ ->]]|[_ [_ ->]]]; discriminate Q.
        - subst. destruct Hxy as [[k [_ ->]]|[_ [_ ->]]]; discriminate Q.
        - destruct Hxy as [[k [H ->]]|[_ [_ ->]]], Rw as [[k' [H' ->]]|[_ [_ ->]]]; try discriminate Q. cbn in Q. apply Z.eqb_eq in Q. subst. f_equal. eauto. }
      apply NoDup_remove_2 in N. apply N. apply in_app_iff. now left. }
    f_equal. apply IH with (sx := sx ++ [x]); [now rewrite <- app_assoc|]. apply Forall2_app; [exact Fs|]. constructor; [exact Hxy|constructor].
  Qed.
  Lemma restored_adjusted o f v : n o <> None -> In f (features o) -> feature_restored M G O n o f v ->
    match v with Some ws => Some (adjusted f ws) | None => None end = v.
  Proof using W Hfits Heq.
    intros Ho Hf R. destruct v as [ws|]; [|reflexivity]. unfold adjusted. destruct (is_table (fkind M f) && funique M f) eqn:K; [|reflexivity].
    apply andb_true_iff in K. destruct K as [K1 K2]. f_equal. apply table_single in K1. unfold feature_restored in R.
    destruct (Hfits o Ho f Hf) as [_ [_ [_ F4]]]. specialize (F4 K1 K2). destruct (intended o f) as [|x l] eqn:E.
    - destruct R as [[_ R]|[[_ R]|[_ [R _]]]]; try discriminate. contradiction.
    - destruct R as [[_ R]|[ys [R F]]]; [discriminate|]. injection R as <-.
      apply (once_same o f) with (xs := x :: l) (sx := []); [exact (w_inj _ _ _ _ W)|exact F4|constructor|exact F].
  Qed.

  Lemma load_ok r i gs : n r = Some i -> contents d = [i] -> (forall o, n o <> None <-> reach M G O r o) ->
    decodeFeatures M d = Some gs -> forall gs', Permutation gs gs' -> restored M G O r n (load M O d gs').
  Proof using W Hall Hd1 Hd2 Hd3 Hsmall Hfits Hlinks P Heq.
    intros Hr Hc Hre E gs' Hp. destruct decode_features as [gs0 [E0 [N A]]]. rewrite E in E0. injection E0 as <-. constructor.
    - now exists i.
    - exact Hre.
    - exact (w_inj _ _ _ _ W).
    - intros o j Ho. cbn [load l_class]. destruct (find_known o j Ho) as [q [Q1 [Q2 _]]]. rewrite Q1. cbn. now rewrite Q2.
    - intros j. cbn [load l_class]. destruct (find_object d j) as [q|] eqn:Q; [|intro H; contradiction]. intros _. exact (find_only _ _ Q).
    - intros o j Ho f Hf. cbn [load l_value]. destruct (A o j f Ho Hf) as [v [R An]].
      rewrite (fold_apply j f gs' v); [|eapply Permutation_NoDup; [apply Permutation_map, Hp|exact N]|].
      + rewrite (restored_adjusted o f v); [exact R|congruence|exact Hf|exact R].
      + intro ws. rewrite <- (An ws). split; apply Permutation_in; [now apply Permutation_sym|exact Hp].
    - intros O1 O2 o j t Ho Ht. cbn [load l_identity]. unfold decodeIdentity. destruct (find_known o j Ho) as [q [Q1 [_ [a [b Q2]]]]].
      rewrite Q1, O1, Q2. unfold columns_of. rewrite O2, O1, Ht. reflexivity.
  Qed.
End Read.

(** ** saving and loading *)
Section Trip.
  Context {D C : Type} (M : meta D C) (G : source D) (O : options).
  Hypothesis P : proper M.

  Lemma save_total r rest l : roots G = r :: rest -> (forall o, reach M G O r o -> In o l) ->
    forall fuel, (length l <= fuel)%nat -> save M G O fuel <> None.
  Proof using P.
    intros Hr Hl fuel Hf. unfold save. rewrite Hr.
    pose proof (encodeObject_total M G O r P l Hl fuel start r (-1) (-1) (start_wf M G O) (reach_root _ _ _ _)) as T.
    fold (@start C). destruct (encodeObject M G O fuel start r (-1) (-1)) as [[s' i]|]; [discriminate|]. exfalso. apply T; [|reflexivity].
    unfold missing. cbn. clear - Hf. enough (length (filter (fun _ => true) l) <= length l)%nat by lia. clear.
    induction l; cbn [filter length]; lia.
  Qed.

  Lemma trip r rest fuel d n : roots G = r :: rest -> valid M G O r -> exact_equality M ->
    save M G O fuel = Some (d, n) -> (forall o i, n o = Some i -> i < 2 ^ 63) -> links_ok M G O n ->
    exists gs, decodeFeatures M d = Some gs /\ forall gs', Permutation gs gs' -> restored M G O r n (load M O d gs').
  Proof using P.
    intros Hr Hv He E Hs Hk. unfold save in E. rewrite Hr in E. fold (@start C) in E.
    destruct (encodeObject M G O fuel start r (-1) (-1)) as [[s i]|] eqn:Es; [|discriminate]. injection E as <- <-.
    destruct (encodeObject_ok M G O r P _ _ _ _ _ _ _ (start_wf M G O) (reach_root _ _ _ _) Es) as [[W X Dn Rn] Hi].
    assert (forall o j, sid s o = Some j -> complete M G O s o j) as Hall.
    { intros o j Ho. apply Dn; [exact Ho|]. cbn. pose proof (w_range _ _ _ _ W _ _ Ho). lia. }
    assert (forall o, sid s o <> None <-> reach M G O r o) as Hre.
    { intro o. split.
      - intro H. destruct (Rn o H) as [Q|Q]; [contradiction|exact Q].
      - intro H. induction H as [|o f x Ho IH Hf Hh Hx]; [congruence|]. destruct (sid s o) as [j|] eqn:Q; [|contradiction].
        destruct (Hall o j Q) as [A B].
        assert (forall c, col_ok M G s j f (IObj x) c -> sid s x <> None) as K.
        { intros c. unfold col_ok. destruct Hh as [Hh|Hh]; rewrite Hh; intros [k [H _]]; congruence. }
        destruct Hh as [Hh|Hh].
        + apply in_flat_map in Hf. destruct Hf as [c [Hc Hf]]. destruct (A c Hc) as [cols [_ [K1 K2]]].
          assert (In f (map fst cols)) as Hin. { rewrite K1. apply filter_In. split; [exact Hf|]. now rewrite Hh. }
          apply in_map_iff in Hin. destruct Hin as [p [<- Hp]]. rewrite Forall_forall in K2. specialize (K2 p Hp). unfold cell_ok in K2.
          destruct (Hv o) with (f := fst p) as [F1 _]; [exact Ho|apply in_flat_map; now exists c|].
          destruct (intended M G O o (fst p)) as [|y l]; [destruct Hx|]. destruct l as [|z l].
          * destruct Hx as [->|[]]. now apply K in K2.
          * exfalso. assert (single M (fst p)) as Q' by (unfold single; rewrite Hh; intuition congruence). specialize (F1 Q'). cbn in F1. lia.
        + destruct (B f Hf) as [cs [_ F]]; [now rewrite Hh|]. clear - F Hx K. induction F as [|y c l cs H F IH]; [destruct Hx|].
          destruct Hx as [->|Hx]; [now apply K in H|auto]. }
    assert (contents (tables (add_content s i)) = [i]) as Hct. { cbn [add_content tables contents]. rewrite (e_contents _ _ _ X). reflexivity. }
    assert (forall o, sid s o <> None -> forall f, In f (all_features M (oclass G o)) -> fits M G O o f) as Hfits.
    { intros o Ho. apply Hv. now apply Hre. }
    destruct (decode_features M G O s (tables (add_content s i)) W Hall eq_refl eq_refl eq_refl Hs Hfits Hk P) as [gs [Eg _]].
    exists gs. split; [exact Eg|]. intros gs' Hp.
    apply (load_ok M G O s (tables (add_content s i)) W Hall eq_refl eq_refl eq_refl Hs Hfits Hk P He r i gs); auto.
  Qed.
End Trip.
