From Coq Require Import Permutation.
From Verif Require Import Base ListModel ListSpec ListProofs CallbackSpec.

Section CallbackProofs.
  Context {A : Type} (eqb : A -> A -> bool) (nilv : A).
  Hypothesis eqb_ok : forall x y, reflect (x = y) (eqb x y).

  Lemma entered_app (a b : list (callback A)) : entered (a ++ b) = entered a ++ entered b.
  Proof. induction a as [|[] a IH]; cbn; rewrite ?IH; reflexivity. Qed.
  Lemma left_app (a b : list (callback A)) : left (a ++ b) = left a ++ left b.
  Proof. induction a as [|[] a IH]; cbn; rewrite ?IH, ?app_assoc; reflexivity. Qed.

  Lemma entered_didAddAll (l : list A) i sep : entered sep = [] -> entered (didAddAll i l sep) = l.
  Proof.
    intro Hs. revert i; induction l as [|x l IH]; intro i; cbn; [reflexivity|].
    now rewrite entered_app, Hs, IH.
  Qed.
  Lemma left_didAddAll (l : list A) i sep : left sep = [] -> left (didAddAll i l sep) = [].
  Proof.
    intro Hs. revert i; induction l as [|x l IH]; intro i; cbn; [reflexivity|].
    now rewrite left_app, Hs, IH.
  Qed.
  Lemma entered_didRemoveDown (l : list A) i : entered (didRemoveDown l i) = [].
  Proof. revert i; induction l; intro i; cbn; auto. Qed.
  Lemma left_didRemoveDown (l : list A) i : left (didRemoveDown l i) = l.
  Proof. revert i; induction l as [|x l IH]; intro i; cbn; [auto|]. now rewrite IH. Qed.

  (** what a call announces, and its exact positional meaning *)
  Definition faithful (data d : list A) (cb : list (callback A)) : Prop :=
    Permutation (data ++ entered cb) (d ++ left cb).

  Definition exact (data d : list A) (cb : list (callback A)) : Prop :=
    fold_left apply_callback cb data = d.

  Lemma perm_insert i (x : A) s : Permutation (s ++ [x]) (insert_at i x s).
  Proof.
    unfold insert_at. etransitivity; [|apply Permutation_middle]. rewrite firstn_skipn.
    apply Permutation_sym, Permutation_cons_append.
  Qed.
  Lemma perm_delete i (x : A) s : nth_error s i = Some x -> Permutation s (delete_at i s ++ [x]).
  Proof.
    intro H. unfold delete_at, delete_range. rewrite Nat.add_1_r.
    rewrite (firstn_skipn_nth _ _ _ H) at 1.
    rewrite <- Permutation_cons_append. apply Permutation_sym, Permutation_middle.
  Qed.
  Lemma perm_move i j (x : A) s : nth_error s i = Some x -> Permutation s (move i j x s).
  Proof.
    intro H. unfold move. rewrite <- perm_insert. now apply perm_delete.
  Qed.
  Lemma perm_replace i (x y : A) s : nth_error s i = Some x -> Permutation (s ++ [y]) (replace_at i y s ++ [x]).
  Proof.
    intro H. unfold replace_at. rewrite Nat.add_1_r. rewrite (firstn_skipn_nth _ _ _ H) at 1.
    rewrite <- !Permutation_cons_append. rewrite <- !Permutation_middle. apply perm_swap.
  Qed.

  Lemma removeAllLoop_faithful c n data0 data cb m d cb' r :
    (n <= length data)%nat ->
    Permutation (data0 ++ entered cb) (data ++ left cb) -> exact data0 data cb ->
    removeAllLoop eqb nilv n data c cb m = Ret (d, cb') r ->
    faithful data0 d cb' /\ exact data0 d cb'.
  Proof.
    revert data cb m; induction n as [|n IH]; intros data cb m Hn HP HE; cbn [removeAllLoop].
    - intros [= <- <- <-]. split; assumption.
    - destruct (nth_error_lt_some data n) as [x Hx]; [lia|].
      unfold doGet, zget. destruct (Z.ltb_spec (Z.of_nat n) 0); [lia|]. rewrite Nat2Z.id, Hx. cbn [lift].
      destruct (contains eqb (elems data c) x).
      + replace (Z.of_nat n >=? zlen data) with false by zl. cbn [orb].
        rewrite (doRemove_eq nilv _ _ x) by (rewrite ?Nat2Z.id; auto; lia). cbn [lift]. rewrite Nat2Z.id.
        apply IH.
        * unfold delete_at, delete_range. rewrite app_length, firstn_length, skipn_length. lia.
        * rewrite entered_app, left_app. cbn. rewrite app_nil_r, HP.
          rewrite (perm_delete n x data) at 1 by assumption. rewrite <- !app_assoc.
          apply Permutation_app_head. apply Permutation_app_comm.
        * unfold exact in *. rewrite fold_left_app, HE. cbn. now rewrite Nat2Z.id.
      + apply IH; auto; lia.
  Qed.

  Ltac cond H :=
    match type of H with
    | (if ?b then Panic else _) = _ => destruct b eqn:?Hg; [discriminate H|]
    | (if ?b then ret _ _ _ else _) = _ =>
        destruct b eqn:?Hg; [injection H as <- <- <-; split; [apply Permutation_refl|reflexivity]|]
    end.

  Lemma exact_didAddAll (l pre post : list A) :
    fold_left apply_callback (didAddAll (zlen pre) l [DidChange]) (pre ++ post) = pre ++ l ++ post.
  Proof.
    revert pre; induction l as [|x l IH]; intro pre; cbn [didAddAll fold_left app]; [reflexivity|].
    cbn [apply_callback]. rewrite insert_at_app by lia.
    specialize (IH (pre ++ [x])). replace (zlen (pre ++ [x])) with (zlen pre + 1) in IH by zl.
    rewrite <- !app_assoc in IH. cbn [app] in IH. exact IH.
  Qed.
  Lemma exact_didRemoveDown (l pre post : list A) :
    fold_left apply_callback (didRemoveDown (rev l) (zlen pre + zlen l - 1)) (pre ++ l ++ post) = pre ++ post.
  Proof.
    revert post. induction l as [|x l IH] using rev_ind; intro post; [reflexivity|].
    rewrite rev_app_distr. cbn [rev app didRemoveDown fold_left apply_callback].
    replace ((pre ++ (l ++ [x]) ++ post)) with ((pre ++ l) ++ x :: post)
      by (rewrite <- !app_assoc; reflexivity).
    rewrite delete_at_app by zl.
    replace (zlen pre + zlen (l ++ [x]) - 1 - 1) with (zlen pre + zlen l - 1) by zl.
    rewrite <- app_assoc. apply IH.
  Qed.

  Lemma step_callbacks unique data o d cb r :
    step eqb nilv unique data o = Ret (d, cb) r ->
    faithful data d cb /\ (not_add_all o -> exact data d cb).
  Proof.
    intro H. pose proof (zlen_nonneg data) as Hpos. unfold faithful.
    assert (Htriv : forall (d : list A), Permutation (d ++ entered []) (d ++ left []))
      by (intro; apply Permutation_refl).
    destruct o; cbn [step] in H.
    - destruct (unique && contains eqb data e); injection H as <- <- <-.
      + split; [apply Htriv|reflexivity].
      + cbn. rewrite app_nil_r. split; [apply Permutation_refl|]. intros _. unfold exact. cbn.
        rewrite <- (app_nil_r data) at 2. rewrite insert_at_app by lia. reflexivity.
    - match type of H with (if ?b then _ else _) = _ => destruct b end; injection H as <- <- <-.
      + split; [apply Htriv|reflexivity].
      + rewrite entered_app, left_app, entered_didAddAll, left_didAddAll by reflexivity. cbn.
        rewrite !app_nil_r. split; [apply Permutation_refl|]. cbn. tauto.
    - destruct ((i <? 0) || (i >? zlen data)) eqn:Hg; [discriminate|].
      destruct (unique && contains eqb data e).
      + injection H as <- <- <-. split; [apply Htriv|reflexivity].
      + rewrite doInsert_eq in H by lia. injection H as <- <- <-. cbn. rewrite app_nil_r.
        split; [apply perm_insert|reflexivity].
    - destruct ((i <? 0) || (i >? zlen data)) eqn:Hg; [discriminate|].
      match type of H with (if ?b then _ else _) = _ => destruct b end.
      + injection H as <- <- <-. split; [apply Htriv|reflexivity].
      + rewrite doInsertAll_eq in H by lia. injection H as <- <- <-.
        rewrite entered_didAddAll, left_didAddAll by reflexivity. rewrite app_nil_r.
        destruct (split_at data i) as (l1 & l2 & -> & Hl); [lia|].
        unfold insert_all_at. rewrite firstn_exact, skipn_exact by zl. split.
        * rewrite <- app_assoc. apply Permutation_app_head, Permutation_app_comm.
        * intros _. unfold exact. rewrite <- Hl. apply exact_didAddAll.
    - destruct (indexOf eqb data e =? -1) eqn:Hg; [discriminate|].
      rewrite (indexOf_spec eqb) in *.
      destruct (first_pos eqb data e) as [n|] eqn:E; cbn [pos_res] in *; [|discriminate].
      apply first_pos_some in E as [E _]; [|assumption].
      assert (Hlt : (n < length data)%nat) by (apply nth_error_Some; congruence).
      destruct (Z_lt_ge_dec i 0); [rewrite doMove_bad in H by zl; discriminate|].
      destruct (Z_lt_ge_dec i (zlen data)); [|rewrite doMove_bad in H by zl; discriminate].
      rewrite (doMove_eq _ _ _ e) in H by (rewrite ?Nat2Z.id; auto; lia).
      injection H as <- <- <-. rewrite Nat2Z.id.
      destruct (Z.eqb_spec (Z.of_nat n) i) as [<-|Hne].
      + cbn. rewrite Nat2Z.id. rewrite !app_nil_r. split; [now apply perm_move|].
        intros _. unfold exact. cbn.
        destruct (split_elem data (Z.of_nat n)) as (l1 & y & l2 & -> & Hl); [lia|].
        rewrite <- (Nat2Z.id n) in E. rewrite nth_error_mid in E by lia. injection E as ->.
        unfold move. rewrite <- (Nat2Z.id n). rewrite delete_at_app, insert_at_app by lia. reflexivity.
      + cbn. rewrite !app_nil_r. split; [now apply perm_move|]. intros _. unfold exact. cbn.
        now rewrite Nat2Z.id.
    - match type of H with (if ?b then _ else _) = _ => destruct b eqn:Hg; [discriminate|] end.
      destruct (nth_error_lt_some data (Z.to_nat i)) as [x Hx]; [zl|].
      destruct (Z_lt_ge_dec j (zlen data)); [|rewrite doMove_bad in H by zl; discriminate].
      rewrite (doMove_eq _ _ _ x) in H by (auto; lia).
      injection H as <- <- <-.
      destruct (Z.eqb_spec i j) as [<-|Hne].
      + cbn. rewrite !app_nil_r. split; [now apply perm_move|].
        intros _. unfold exact. cbn.
        destruct (split_elem data i) as (l1 & y & l2 & -> & Hl); [lia|].
        rewrite nth_error_mid in Hx by lia. injection Hx as ->.
        unfold move. rewrite delete_at_app, insert_at_app by lia. reflexivity.
      + cbn. rewrite !app_nil_r. split; [now apply perm_move|]. reflexivity.
    - match type of H with (if ?b then _ else _) = _ => destruct b eqn:Hg; [discriminate|] end.
      destruct (nth_error_lt_some data (Z.to_nat i)) as [x Hx]; [zl|].
      rewrite (doRemove_eq nilv _ _ x) in H by (auto; lia). injection H as <- <- <-. cbn.
      rewrite app_nil_r. split; [now apply perm_delete|reflexivity].
    - rewrite (indexOf_spec eqb) in *.
      destruct (first_pos eqb data e) as [n|] eqn:E; cbn [pos_res] in *.
      + apply first_pos_some in E as [E _]; [|assumption].
        destruct (Z.eqb_spec (Z.of_nat n) (-1)); [lia|].
        rewrite (doRemove_eq nilv _ _ e) in H by (rewrite ?Nat2Z.id; auto; lia).
        injection H as <- <- <-. rewrite Nat2Z.id. cbn. rewrite app_nil_r.
        split; [now apply perm_delete|]. intros _. unfold exact. cbn. now rewrite Nat2Z.id.
      + injection H as <- <- <-. split; [apply Htriv|reflexivity].
    - destruct ((i <? 0) || (i >=? zlen data)) eqn:Hg; [discriminate|].
      destruct ((j <? 0) || (j >? zlen data)) eqn:Hg2; [discriminate|].
      destruct (i >? j) eqn:Hg3; [discriminate|].
      rewrite doRemoveRange_eq in H by lia. injection H as <- <- <-.
      rewrite entered_app, left_app, entered_didRemoveDown, left_didRemoveDown. cbn. rewrite !app_nil_r.
      destruct (split_at data i) as (l1 & t & -> & Hl1); [lia|].
      destruct (split_at t (j - i)) as (l2 & l3 & -> & Hl2); [zl|].
      assert (E2 : skipn (Z.to_nat i) (l1 ++ l2 ++ l3) = l2 ++ l3) by (apply skipn_exact; zl).
      assert (E3 : firstn (Z.to_nat (j - i)) (l2 ++ l3) = l2) by (apply firstn_exact; zl).
      assert (E : delete_range (Z.to_nat i) (Z.to_nat j) (l1 ++ l2 ++ l3) = l1 ++ l3).
      { unfold delete_range. rewrite firstn_exact by zl.
        rewrite app_assoc, skipn_exact by zl. reflexivity. }
      rewrite E2, E3, E. split.
      + rewrite <- (Permutation_rev l2), <- app_assoc. apply Permutation_app_head, Permutation_app_comm.
      + intros _. unfold exact. rewrite fold_left_app. cbn [fold_left apply_callback].
        replace (j - 1) with (zlen l1 + zlen l2 - 1) by lia. apply exact_didRemoveDown.
    - eapply (removeAllLoop_faithful c _ data) in H; [|lia|apply Htriv|reflexivity].
      unfold faithful in H. split; [apply H|intro; apply H].
    - match type of H with (if ?b then _ else _) = _ => destruct b eqn:Hg; [discriminate|] end.
      destruct (doGet data i); [|discriminate]. injection H as <- <- <-. split; [apply Htriv|reflexivity].
    - match type of H with (if ?b then _ else _) = _ => destruct b eqn:Hg; [discriminate|] end. cbv zeta in H.
      match type of H with (if ?b then _ else _) = _ => destruct b; [discriminate|] end.
      destruct (nth_error_lt_some data (Z.to_nat i)) as [x Hx]; [zl|].
      rewrite (doSet_eq _ _ _ x) in H by (auto; lia). injection H as <- <- <-. cbn.
      split; [now apply perm_replace|reflexivity].
    - injection H as <- <- <-. cbn. rewrite app_nil_r. split; [apply Permutation_refl|reflexivity].
    - injection H as <- <- <-. split; [apply Htriv|reflexivity].
    - injection H as <- <- <-. split; [apply Htriv|reflexivity].
    - injection H as <- <- <-. split; [apply Htriv|reflexivity].
    - injection H as <- <- <-. split; [apply Htriv|reflexivity].
    - injection H as <- <- <-. split; [apply Htriv|reflexivity].
  Qed.
End CallbackProofs.
