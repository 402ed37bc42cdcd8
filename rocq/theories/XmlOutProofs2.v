(** Proofs about the XML writer: texts which are not well-formed, and reading texts back. *)
From Coq Require Import String.
From Verif Require Import Base Chars XmlOutModel XmlOutSpec XmlOutProofs.
Open Scope Z_scope.

(** in a well-formed text, < is followed by a character other than < *)
Definition followed (s : str) : Prop := forall a b, s = a ++ 60 :: b -> exists c b', b = c :: b' /\ c <> 60.
Lemma followed_app : forall s t, followed s -> followed t -> followed (s ++ t).
Proof.
  intros s. induction s as [|c s IH]; intros t Hs Ht a b E; cbn [app] in E; [eapply Ht; eauto|]. destruct a as [|x a]; cbn [app] in E.
  - injection E as -> <-. destruct (Hs [] s eq_refl) as (c & b' & -> & N). cbn. eauto.
  - injection E as -> E. refine (IH t _ Ht a b E). intros a' b' E'. apply (Hs (x :: a') b'). cbn. congruence.
Qed.
Lemma followed_none : forall s, ~ In 60 s -> followed s.
Proof. intros s H a b ->. destruct H. apply in_or_app. cbn. auto. Qed.
Lemma char_data_no_lt : forall x s, char_data x s -> ~ In 60 s.
Proof.
  intros x s H. induction H; cbn; auto.
  - intuition.
  - intros [E|E]; [discriminate|]. apply in_app_or in E. destruct E as [E|[E|E]]; [|discriminate|auto]. destruct H as [_ H]. apply (H _ E). cbn. auto.
Qed.
Lemma name_no_lt : forall n, name n -> ~ In 60 n.
Proof. intros n [_ H] I. apply (H _ I). cbn. auto. Qed.
Lemma white_no_lt : forall w, white w -> ~ In 60 w.
Proof. intros w H I. specialize (H _ I). cbn in H. intuition discriminate. Qed.
Lemma attributes_no_lt : forall a, attributes a -> ~ In 60 a.
Proof.
  intros a H. induction H; cbn; auto. intros I. apply in_app_or in I. destruct I as [I|I]; [apply (white_no_lt _ H0 I)|].
  apply in_app_or in I. destruct I as [I|I]; [apply (name_no_lt _ H1 I)|]. cbn in I. destruct I as [I|[I|I]]; try discriminate.
  apply in_app_or in I. destruct I as [I|I]; [apply (char_data_no_lt _ _ H2 I)|]. cbn in I. destruct I as [I|I]; [discriminate|auto].
Qed.
Lemma tag_followed : forall n r, name n -> followed r -> followed ([60] ++ n ++ r).
Proof.
  intros n r N R. destruct n as [|c n]; [destruct N as [N _]; congruence|].
  assert (X : c <> 60) by (intros ->; apply (name_no_lt _ N); cbn; auto).
  intros a b E. destruct a as [|x a]; cbn [app] in E.
  - injection E as <-. eauto.
  - injection E as <- E. assert (F : followed ((c :: n) ++ r)) by (apply followed_app; auto; apply followed_none, name_no_lt; auto). eapply F. exact E.
Qed.
Scheme element_ind2 := Induction for element Sort Prop with content_ind2 := Induction for content Sort Prop.
Lemma element_followed : forall e, element e -> followed e.
Proof.
  apply (element_ind2 (fun e _ => followed e) (fun c _ => followed c)).
  - intros n a N A. apply tag_followed; auto. apply followed_none. intros I. apply in_app_or in I. destruct I as [I|I]; [apply (attributes_no_lt _ A I)|]. vm_compute in I. intuition discriminate.
  - intros n a c N A C IH. apply tag_followed; auto. apply followed_app; [apply followed_none, attributes_no_lt; auto|]. apply followed_app; [apply followed_none; vm_compute; intuition discriminate|].
    apply followed_app; auto. apply followed_app.
    + intros x b E. destruct x as [|y x]; [injection E as <-; eexists _, _; split; [reflexivity|discriminate]|]. destruct x as [|z x]; cbn in E; [discriminate|]. destruct x; discriminate.
    + apply followed_none. intros I. apply in_app_or in I. destruct I as [I|I]; [apply (name_no_lt _ N I)|]. vm_compute in I. intuition discriminate.
  - apply followed_none. auto.
  - intros t c T C IH. apply followed_app; auto. apply followed_none. eapply char_data_no_lt; eauto.
  - intros. apply followed_app; auto.
Qed.
Lemma document_followed : forall s, document s -> followed s.
Proof.
  intros s (v & en & e & w1 & w2 & V & E & EL & W1 & W2 & ->).
  assert (M : ~ In 60 (tl (lit "<?xml version="""))) by (vm_compute; intuition discriminate).
  apply followed_app.
  { intros a b X. destruct a as [|y a]; [injection X as <-; eexists _, _; split; [reflexivity|discriminate]|].
    exfalso. apply M. apply (f_equal (@tl Z)) in X. cbn [app] in X. change (tl (y :: a ++ 60 :: b)) with (a ++ 60 :: b) in X. rewrite X. apply in_or_app. cbn. auto. }
  apply followed_app; [apply followed_none; eapply char_data_no_lt; eauto|].
  apply followed_app; [apply followed_none; vm_compute; intuition discriminate|].
  apply followed_app; [apply followed_none; eapply char_data_no_lt; eauto|].
  apply followed_app; [apply followed_none; vm_compute; intuition discriminate|].
  apply followed_app; [apply followed_none, white_no_lt; auto|].
  apply followed_app; [apply element_followed; auto|apply followed_none, white_no_lt; auto].
Qed.

(** a document has two occurrences of < at least *)
Lemma element_lt : forall e, element e -> In 60 e.
Proof. intros e H. inversion H; subst; cbn; auto. Qed.
Lemma document_two : forall s, document s -> (2 <= count_occ Z.eq_dec s 60%Z)%nat.
Proof.
  intros s (v & en & e & w1 & w2 & V & E & EL & W1 & W2 & ->). rewrite !count_occ_app. apply element_lt in EL. apply (count_occ_In Z.eq_dec) in EL.
  replace (count_occ Z.eq_dec (lit "<?xml version=""") 60) with 1%nat by (vm_compute; reflexivity). lia.
Qed.

(** ** Reading attribute values *)
Lemma escape1_denotes : forall c s t, denotes s t -> denotes (escape1 c ++ s) (c :: t).
Proof.
  intros c s t D. unfold escape1.
  assert (R : forall e, name e -> entity e = Some c -> denotes (([38] ++ e ++ [59]) ++ s) (c :: t)).
  { intros e N E. rewrite <- !app_assoc. apply dn_ref; auto. }
  destruct (Z.eqb_spec c 38) as [->|]. { apply (R (lit "amp")); [a_name|reflexivity]. }
  destruct (Z.eqb_spec c 39) as [->|]. { apply (R (lit "#39")); [a_name|reflexivity]. }
  destruct (Z.eqb_spec c 60) as [->|]. { apply (R (lit "lt")); [a_name|reflexivity]. }
  destruct (Z.eqb_spec c 62) as [->|]. { apply (R (lit "gt")); [a_name|reflexivity]. }
  destruct (Z.eqb_spec c 34) as [->|]. { apply (R (lit "#34")); [a_name|reflexivity]. }
  destruct (Z.eqb_spec c 13) as [->|]. { apply (R (lit "#13")); [a_name|reflexivity]. }
  apply dn_char; auto.
Qed.
Lemma escape_denotes : forall s, denotes (escape s) s.
Proof. induction s as [|c s IH]; [constructor|]. unfold escape. cbn [flat_map]. apply escape1_denotes. exact IH. Qed.

Lemma ref_split : forall e1 s1 e2 s2, ~ In 59 e1 -> ~ In 59 e2 -> e1 ++ 59 :: s1 = e2 ++ 59 :: s2 -> e1 = e2 /\ s1 = s2.
Proof.
  induction e1 as [|x e1 IH]; intros s1 e2 s2 H1 H2 E; destruct e2 as [|y e2]; cbn in *.
  - injection E. auto.
  - injection E as <- E. tauto.
  - injection E as -> E. tauto.
  - injection E as -> E. destruct (IH s1 e2 s2) as [-> ->]; auto.
Qed.
Lemma denotes_unique : forall s t, denotes s t -> forall t', denotes s t' -> t' = t.
Proof.
  intros s t H. induction H as [|c s t N1 N2 D IH|e c s t N E D IH]; intros t' H'.
  - inversion H'; auto.
  - remember (c :: s) as w eqn:W. destruct H' as [|c' s' t'' N1' N2' D'|e' c' s' t'' N' E' D'].
    + discriminate.
    + injection W as -> ->. f_equal. auto.
    + cbn [app] in W. injection W as <- W. congruence.
  - cbn [app] in *. remember (38 :: e ++ 59 :: s) as w eqn:W. destruct H' as [|c' s' t'' N1' N2' D'|e' c' s' t'' N' E' D'].
    + discriminate.
    + injection W as -> ->. congruence.
    + cbn [app] in W. injection W as W. destruct (ref_split e' s' e s) as [-> ->]; auto.
      * intros I. destruct N' as [_ N']. apply (N' _ I). cbn. auto 20.
      * intros I. destruct N as [_ N]. apply (N _ I). cbn. auto 20.
      * f_equal; [congruence|auto].
Qed.
