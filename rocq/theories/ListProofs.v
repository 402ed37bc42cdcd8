From Verif Require Import Base ListModel ListSpec.

Section Primitives.
  Context {A : Type}.
  Implicit Types l : list A.

  Lemma firstn_exact l1 l2 k : k = length l1 -> firstn k (l1 ++ l2) = l1.
  Proof. intros ->. rewrite firstn_app, Nat.sub_diag, firstn_all, firstn_O. apply app_nil_r. Qed.
  Lemma skipn_exact l1 l2 k : k = length l1 -> skipn k (l1 ++ l2) = l2.
  Proof. intros ->. rewrite skipn_app, Nat.sub_diag, skipn_all. reflexivity. Qed.

  Lemma split_at l (i : Z) : 0 <= i <= zlen l -> exists l1 l2, l = l1 ++ l2 /\ zlen l1 = i.
  Proof.
    intro H. exists (firstn (Z.to_nat i) l), (skipn (Z.to_nat i) l).
    split; [symmetry; apply firstn_skipn | zl].
  Qed.
  Lemma split_elem l (i : Z) : 0 <= i < zlen l -> exists l1 x l2, l = l1 ++ x :: l2 /\ zlen l1 = i.
  Proof.
    intro H. destruct (split_at l i) as (l1 & l2 & -> & Hl); [lia|].
    destruct l2 as [|x l2]; [zl|]. eauto.
  Qed.

  Lemma zget_app l1 x l2 i : i = zlen l1 -> zget (l1 ++ x :: l2) i = Some x.
  Proof.
    intros ->. unfold zget. destruct (Z.ltb_spec (zlen l1) 0); [zl|].
    rewrite nth_error_app2 by zl. replace (_ - _)%nat with 0%nat by zl. reflexivity.
  Qed.
  Lemma zslice_app l1 l2 l3 a b : a = zlen l1 -> b = zlen l1 + zlen l2 ->
    zslice (l1 ++ l2 ++ l3) a b = Some l2.
  Proof.
    intros -> ->. unfold zslice.
    replace ((0 <=? zlen l1) && (zlen l1 <=? zlen l1 + zlen l2)
             && (zlen l1 + zlen l2 <=? zlen (l1 ++ l2 ++ l3))) with true by zl.
    rewrite skipn_exact by zl. now rewrite firstn_exact by zl.
  Qed.
  Lemma zslice_post l1 l2 a b : a = zlen l1 -> b = zlen (l1 ++ l2) -> zslice (l1 ++ l2) a b = Some l2.
  Proof.
    intros -> ->. rewrite <- (app_nil_r l2) at 1. apply zslice_app; [reflexivity|zl].
  Qed.
  Lemma zslice_pre l1 l2 b : b = zlen l1 -> zslice (l1 ++ l2) 0 b = Some l1.
  Proof. intros ->. apply (zslice_app [] l1 l2); zl. Qed.
  Lemma zset_app l1 x l2 i v : i = zlen l1 -> zset (l1 ++ x :: l2) i v = Some (l1 ++ v :: l2).
  Proof.
    intros ->. unfold zset.
    replace ((0 <=? zlen l1) && (zlen l1 <? zlen (l1 ++ x :: l2))) with true by zl.
    rewrite firstn_exact by zl.
    replace (l1 ++ x :: l2) with ((l1 ++ [x]) ++ l2) by now rewrite <- app_assoc.
    now rewrite skipn_exact by zl.
  Qed.
  Lemma zcopy_app l1 l2 l3 src off : off = zlen l1 -> length src = length l2 ->
    zcopy (l1 ++ l2 ++ l3) off src = Some (l1 ++ src ++ l3).
  Proof.
    intros -> H. unfold zcopy.
    replace ((0 <=? zlen l1) && (zlen l1 <=? zlen (l1 ++ l2 ++ l3))) with true by zl.
    cbv zeta.
    replace (Nat.min (length (l1 ++ l2 ++ l3) - Z.to_nat (zlen l1)) (length src)) with (length src) by zl.
    rewrite firstn_exact by zl. rewrite firstn_all.
    rewrite app_assoc, (app_assoc l1 l2 l3), skipn_exact by zl. now rewrite <- app_assoc.
  Qed.
  Lemma zcopy_trunc l1 l2 src off : off = zlen l1 -> (length l2 <= length src)%nat ->
    zcopy (l1 ++ l2) off src = Some (l1 ++ firstn (length l2) src).
  Proof.
    intros -> H. unfold zcopy.
    replace ((0 <=? zlen l1) && (zlen l1 <=? zlen (l1 ++ l2))) with true by zl.
    cbv zeta.
    replace (Nat.min (length (l1 ++ l2) - Z.to_nat (zlen l1)) (length src)) with (length l2) by zl.
    rewrite firstn_exact by zl. rewrite skipn_all2 by zl. now rewrite app_nil_r.
  Qed.

  Lemma zget_none l i : ~ (0 <= i < zlen l) -> zget l i = None.
  Proof.
    intro H. unfold zget. destruct (Z.ltb_spec i 0); [reflexivity|].
    apply nth_error_None. zl.
  Qed.
  Lemma zslice_none l a b : ~ (0 <= a <= b /\ b <= zlen l) -> zslice l a b = None.
  Proof.
    intro H. unfold zslice.
    destruct (Z.leb_spec 0 a), (Z.leb_spec a b), (Z.leb_spec b (zlen l)); cbn; try reflexivity. lia.
  Qed.

  Lemma insert_at_app l1 l2 i e : i = zlen l1 -> insert_at (Z.to_nat i) e (l1 ++ l2) = l1 ++ e :: l2.
  Proof. intros ->. unfold insert_at. rewrite firstn_exact, skipn_exact by zl. reflexivity. Qed.
  Lemma delete_at_app l1 x l2 i : i = zlen l1 -> delete_at (Z.to_nat i) (l1 ++ x :: l2) = l1 ++ l2.
  Proof.
    intros ->. unfold delete_at, delete_range. rewrite firstn_exact by zl.
    replace (l1 ++ x :: l2) with ((l1 ++ [x]) ++ l2) by now rewrite <- app_assoc.
    rewrite skipn_exact by zl. reflexivity.
  Qed.
  Lemma replace_at_app l1 x l2 i e : i = zlen l1 -> replace_at (Z.to_nat i) e (l1 ++ x :: l2) = l1 ++ e :: l2.
  Proof.
    intros ->. unfold replace_at. rewrite firstn_exact by zl.
    replace (l1 ++ x :: l2) with ((l1 ++ [x]) ++ l2) by now rewrite <- app_assoc.
    rewrite skipn_exact by zl. reflexivity.
  Qed.
  Lemma nth_error_mid l1 x l2 i : i = zlen l1 -> nth_error (l1 ++ x :: l2) (Z.to_nat i) = Some x.
  Proof.
    intros ->. rewrite nth_error_app2 by zl. replace (_ - _)%nat with 0%nat by zl. reflexivity.
  Qed.
End Primitives.

Section Prims.
  Context {A : Type} (nilv : A).
  (** *** the doXxx primitives compute the expected sequences *)
  Lemma doInsert_eq data i e : 0 <= i <= zlen data ->
    doInsert nilv data i e = Some (insert_at (Z.to_nat i) e data, [DidAdd i e; DidChange]).
  Proof.
    intro H. destruct (split_at data i) as (l1 & l2 & -> & Hl); [lia|].
    unfold doInsert. cbv zeta. rewrite insert_at_app by lia.
    rewrite <- app_assoc. rewrite zslice_post by zl. cbn [obind].
    destruct (l2 ++ [nilv]) as [|y l2'] eqn:E; [destruct l2; discriminate|].
    assert (Hlen : length (l2 ++ [nilv]) = S (length l2')) by (now rewrite E).
    rewrite app_length in Hlen; cbn in Hlen.
    rewrite <- E.
    replace (l1 ++ l2 ++ [nilv]) with ((l1 ++ [y]) ++ l2') by (rewrite E, <- app_assoc; reflexivity).
    rewrite zcopy_trunc by zl. cbn [obind].
    rewrite <- app_assoc. cbn [app]. rewrite zset_app by lia. cbn [obind].
    rewrite firstn_exact by lia. reflexivity.
  Qed.

  Lemma doInsertAll_eq (data : list A) i (c : list A) : 0 <= i <= zlen data ->
    doInsertAll data i c = Some (insert_all_at (Z.to_nat i) c data, negb (zlen c =? 0),
                                 didAddAll i c [DidChange]).
  Proof.
    intro H. destruct (split_at data i) as (l1 & l2 & -> & Hl); [lia|].
    unfold doInsertAll. rewrite zslice_pre, zslice_post by lia. cbn [obind].
    unfold insert_all_at. rewrite firstn_exact, skipn_exact by zl. reflexivity.
  Qed.

  Lemma doRemove_eq data i x : nth_error data (Z.to_nat i) = Some x -> 0 <= i ->
    doRemove nilv data i = Some (delete_at (Z.to_nat i) data, x, [DidRemove i x; DidChange]).
  Proof.
    intros Hx H0.
    assert (H : 0 <= i < zlen data).
    { split; [lia|]. assert (Z.to_nat i < length data)%nat by (apply nth_error_Some; congruence). zl. }
    destruct (split_elem data i) as (l1 & y & l2 & -> & Hl); [lia|].
    rewrite nth_error_mid in Hx by lia. injection Hx as ->.
    unfold doRemove. rewrite zget_app by lia. cbn [obind].
    rewrite delete_at_app by lia.
    replace (zslice (l1 ++ x :: l2) (i + 1) (zlen (l1 ++ x :: l2))) with (Some l2).
    2:{ symmetry. replace (l1 ++ x :: l2) with ((l1 ++ [x]) ++ l2) by now rewrite <- app_assoc.
        apply zslice_post; zl. }
    cbn [obind].
    destruct (exists_last (l := x :: l2)) as (l2' & z & E); [discriminate|].
    rewrite E.
    assert (Hlen : length l2 = length l2').
    { apply (f_equal (@length A)) in E. zl. }
    rewrite zcopy_app by zl. cbn [obind].
    replace (zset (l1 ++ l2 ++ [z]) (zlen (l1 ++ l2 ++ [z]) - 1) nilv)
      with (Some ((l1 ++ l2) ++ [nilv])).
    2:{ symmetry. rewrite app_assoc. apply zset_app. zl. }
    cbn [obind]. rewrite zslice_pre by zl. reflexivity.
  Qed.

  Lemma doRemoveRange_eq (data : list A) i j : 0 <= i <= j -> j <= zlen data ->
    doRemoveRange data i j =
    Some (delete_range (Z.to_nat i) (Z.to_nat j) data,
          firstn (Z.to_nat (j - i)) (skipn (Z.to_nat i) data),
          didRemoveDown (rev (firstn (Z.to_nat (j - i)) (skipn (Z.to_nat i) data))) (j - 1) ++ [DidChange]).
  Proof.
    intros H H'. unfold doRemoveRange.
    destruct (split_at data i) as (l1 & r & -> & Hl); [lia|].
    destruct (split_at r (j - i)) as (l2 & l3 & -> & Hl2); [zl|].
    rewrite (zslice_app l1 l2 l3) by lia. cbn [obind].
    rewrite zslice_pre by lia. cbn [obind].
    rewrite app_assoc, zslice_post by zl. cbn [obind].
    rewrite <- app_assoc. unfold delete_range.
    assert (E1 : firstn (Z.to_nat i) (l1 ++ l2 ++ l3) = l1) by (apply firstn_exact; zl).
    assert (E2 : skipn (Z.to_nat i) (l1 ++ l2 ++ l3) = l2 ++ l3) by (apply skipn_exact; zl).
    assert (E3 : firstn (Z.to_nat (j - i)) (l2 ++ l3) = l2) by (apply firstn_exact; zl).
    assert (E4 : skipn (Z.to_nat j) (l1 ++ l2 ++ l3) = l3)
      by (rewrite app_assoc; apply skipn_exact; zl).
    rewrite E1, E2, E3, E4. reflexivity.
  Qed.

  Lemma doSet_eq (data : list A) i e x : nth_error data (Z.to_nat i) = Some x -> 0 <= i ->
    doSet data i e = Some (replace_at (Z.to_nat i) e data, x, [DidSet i e x; DidChange]).
  Proof.
    intros Hx H0.
    assert (H : 0 <= i < zlen data).
    { split; [lia|]. assert (Z.to_nat i < length data)%nat by (apply nth_error_Some; congruence). zl. }
    destruct (split_elem data i) as (l1 & y & l2 & -> & Hl); [lia|].
    rewrite nth_error_mid in Hx by lia. injection Hx as ->.
    unfold doSet. rewrite zget_app, zset_app by lia. cbn [obind].
    rewrite replace_at_app by lia. reflexivity.
  Qed.

  Lemma doMove_eq (data : list A) i j x : nth_error data (Z.to_nat i) = Some x -> 0 <= i -> 0 <= j < zlen data ->
    doMove data i j = Some (move (Z.to_nat i) (Z.to_nat j) x data, x,
                            if i =? j then [] else [DidMove j x i; DidChange]).
  Proof.
    intros Hx H0 Hj.
    assert (H : 0 <= i < zlen data).
    { split; [lia|]. assert (Z.to_nat i < length data)%nat by (apply nth_error_Some; congruence). zl. }
    unfold doMove, move.
    destruct (Z.eqb_spec i j) as [->|Hne].
    - destruct (split_elem data j) as (l1 & y & l2 & -> & Hl); [lia|].
      rewrite nth_error_mid in Hx by lia. injection Hx as ->.
      rewrite zget_app by lia. cbn [obind].
      rewrite delete_at_app, insert_at_app by lia. reflexivity.
    - destruct (Z.ltb_spec j i) as [Hlt|Hge].
      + destruct (split_elem data i) as (l & y & l3 & -> & Hl); [lia|].
        rewrite nth_error_mid in Hx by lia. injection Hx as ->.
        rewrite zget_app by lia. cbn [obind].
        destruct (split_at l j) as (l1 & l2 & -> & Hl1); [lia|].
        rewrite delete_at_app by lia. rewrite <- !app_assoc. rewrite insert_at_app by lia.
        rewrite (zslice_app l1 l2 (x :: l3)) by zl. cbn [obind].
        destruct (l2 ++ [x]) as [|a l2'] eqn:E; [destruct l2; discriminate|].
        assert (Hlen : length l2' = length l2) by (apply (f_equal (@length A)) in E; zl).
        replace (l1 ++ l2 ++ x :: l3) with ((l1 ++ [a]) ++ l2' ++ l3).
        2:{ rewrite <- app_assoc. f_equal. change ((a :: l2') ++ l3 = l2 ++ x :: l3).
            rewrite <- E. now rewrite <- app_assoc. }
        rewrite zcopy_app by zl. cbn [obind].
        rewrite <- app_assoc. cbn [app]. rewrite zset_app by lia. reflexivity.
      + destruct (split_elem data i) as (l1 & y & l' & -> & Hl); [lia|].
        rewrite nth_error_mid in Hx by lia. injection Hx as ->.
        rewrite zget_app by lia. cbn [obind].
        destruct (split_at l' (j - i)) as (l2 & l3 & -> & Hl2); [zl|].
        rewrite delete_at_app by lia.
        rewrite (app_assoc l1 l2 l3), insert_at_app by zl.
        replace (zslice (l1 ++ x :: l2 ++ l3) (i + 1) (j + 1)) with (Some l2).
        2:{ symmetry. replace (l1 ++ x :: l2 ++ l3) with ((l1 ++ [x]) ++ l2 ++ l3)
              by now rewrite <- !app_assoc. apply zslice_app; zl. }
        cbn [obind].
        destruct (exists_last (l := x :: l2)) as (l2' & z & E); [discriminate|].
        assert (Hlen : length l2' = length l2) by (apply (f_equal (@length A)) in E; zl).
        replace (l1 ++ x :: l2 ++ l3) with (l1 ++ l2' ++ z :: l3).
        2:{ f_equal. change (l2' ++ z :: l3 = (x :: l2) ++ l3). rewrite E. now rewrite <- app_assoc. }
        rewrite zcopy_app by lia. cbn [obind].
        rewrite app_assoc, zset_app by zl. reflexivity.
  Qed.

  Lemma doMove_bad (data : list A) i j : 0 <= i < zlen data -> ~ (0 <= j < zlen data) -> doMove data i j = None.
  Proof.
    intros H Hj. unfold doMove.
    destruct (split_elem data i) as (l1 & x & l2 & -> & Hl); [lia|].
    rewrite zget_app by lia. cbn [obind].
    destruct (Z.eqb_spec i j); [lia|].
    destruct (Z.ltb_spec j i).
    - rewrite zslice_none by lia. reflexivity.
    - rewrite zslice_none by lia. reflexivity.
  Qed.

End Prims.

Section Search.
  Context {A : Type} (eqb : A -> A -> bool).
  Notation indexOf := (indexOf eqb).
  Notation first_pos := (first_pos eqb).
  Lemma indexOf_from_spec l e i :
    indexOf_from eqb i l e = match first_pos l e with Some n => i + Z.of_nat n | None => -1 end.
  Proof.
    revert i; induction l as [|v l IH]; intro i; cbn; [reflexivity|].
    destruct (eqb v e); [cbn; lia|]. rewrite IH.
    destruct (first_pos l e); cbn; lia.
  Qed.
  Lemma indexOf_spec l e : indexOf l e = pos_res (first_pos l e).
  Proof. unfold indexOf. rewrite indexOf_from_spec. unfold pos_res. destruct (first_pos l e); lia. Qed.

End Search.

Section ListProofs.
  Context {A : Type} (eqb : A -> A -> bool) (nilv : A).
  Hypothesis eqb_ok : forall x y, reflect (x = y) (eqb x y).

  Notation indexOf := (indexOf eqb).
  Notation contains := (contains eqb).
  Notation member := (member eqb).
  Notation first_pos := (first_pos eqb).
  Notation fresh := (fresh eqb).

  Lemma eqb_refl x : eqb x x = true.
  Proof. destruct (eqb_ok x x); congruence. Qed.

  (** *** search *)
  Lemma first_pos_none l e : first_pos l e = None <-> ~ In e l.
  Proof.
    induction l as [|v l IH]; cbn; [tauto|].
    destruct (eqb_ok v e) as [->|Hne].
    - split; [discriminate|tauto].
    - destruct (first_pos l e); cbn.
      + split; [discriminate|]. intro H. exfalso. assert (H' : ~ In e l) by tauto.
        apply IH in H'. discriminate.
      + split; [intros _ [?|?]; [congruence|tauto]|reflexivity].
  Qed.

  Lemma first_pos_some l e n : first_pos l e = Some n ->
    nth_error l n = Some e /\ forall m, (m < n)%nat -> nth_error l m <> Some e.
  Proof.
    revert n; induction l as [|v l IH]; intro n; cbn; [discriminate|].
    destruct (eqb_ok v e) as [->|Hne].
    - intros [= <-]. cbn. split; [reflexivity|]. lia.
    - destruct (first_pos l e) as [k|]; cbn; [|discriminate]. intros [= <-].
      destruct (IH k eq_refl) as [H1 H2]. cbn. split; [assumption|].
      intros [|m] Hm; cbn; [congruence|]. apply H2. lia.
  Qed.

  Lemma member_in x l : member x l = true <-> In x l.
  Proof.
    unfold member, ListSpec.member. rewrite existsb_exists. split.
    - intros (y & Hy & E). destruct (eqb_ok x y); congruence.
    - intro H. exists x. split; [assumption|apply eqb_refl].
  Qed.
  Lemma member_not_in x l : member x l = false <-> ~ In x l.
  Proof. rewrite <- member_in. destruct (member x l); intuition congruence. Qed.

  Lemma contains_member l x : contains l x = member x l.
  Proof.
    unfold contains, ListModel.contains. rewrite indexOf_spec.
    destruct (first_pos l x) as [n|] eqn:E; cbn.
    - destruct (first_pos_some _ _ _ E) as [H _]. apply nth_error_In in H.
      rewrite (proj2 (member_in x l) H). destruct (Z.eqb_spec (Z.of_nat n) (-1)); [lia|reflexivity].
    - apply first_pos_none in E. apply member_not_in in E. now rewrite E.
  Qed.

  (** *** duplicate filtering *)
  Lemma lhs_remove_in v s x : NoDup s -> (In x (lhs_remove eqb v s) <-> In x s /\ x <> v).
  Proof.
    induction s as [|y s IH]; intro Hd; cbn; [tauto|].
    inversion Hd as [|? ? Hy Hd']; subst.
    destruct (eqb_ok y v) as [->|Hne]; cbn.
    - split; [|intuition congruence]. intro H. split; [tauto|]. intros ->. tauto.
    - rewrite IH by assumption. intuition congruence.
  Qed.

  Lemma lhs_remove_filter v s : NoDup s -> lhs_remove eqb v s = filter (fun x => negb (eqb x v)) s.
  Proof.
    induction s as [|y s IH]; intro Hd; cbn; [reflexivity|].
    inversion Hd as [|? ? Hy Hd']; subst.
    destruct (eqb_ok y v) as [->|Hne]; cbn.
    - rewrite <- (IH Hd'). clear -eqb_ok Hy.
      induction s as [|z s IH]; cbn; [reflexivity|].
      destruct (eqb_ok z v) as [->|]; [exfalso; apply Hy; now left|].
      f_equal. apply IH. intro; apply Hy; now right.
    - now rewrite IH.
  Qed.

  Lemma filter_NoDup (f : A -> bool) s : NoDup s -> NoDup (filter f s).
  Proof. apply NoDup_filter. Qed.

  Lemma filter_filter_comm (f g : A -> bool) s : filter f (filter g s) = filter (fun x => g x && f x) s.
  Proof.
    induction s as [|x s IH]; cbn; [reflexivity|].
    destruct (g x); cbn; [destruct (f x); cbn; now rewrite IH|apply IH].
  Qed.

  Lemma fold_remove_filter data s : NoDup s ->
    fold_left (fun s v => lhs_remove eqb v s) data s = filter (fun x => negb (member x data)) s.
  Proof.
    revert s; induction data as [|v data IH]; intros s Hd; cbn.
    - clear. induction s; cbn; congruence.
    - rewrite lhs_remove_filter by assumption. rewrite IH by now apply filter_NoDup.
      rewrite filter_filter_comm. apply filter_ext. intro x.
      unfold member, ListSpec.member. cbn. now rewrite negb_orb.
  Qed.

  Lemma fresh_ext c s1 s2 : (forall y, In y s1 <-> In y s2) -> fresh s1 c = fresh s2 c.
  Proof.
    revert s1 s2; induction c as [|z c' IH]; intros s1 s2 H; cbn; [reflexivity|].
    assert (member z s1 = member z s2) as ->.
    { destruct (member z s1) eqn:E1, (member z s2) eqn:E2; try reflexivity.
      - apply member_in in E1. apply H in E1. apply member_not_in in E2. tauto.
      - apply member_in in E2. apply H in E2. apply member_not_in in E1. tauto. }
    destruct (member z s2); [now apply IH|]. f_equal. apply IH.
    intro y; cbn. rewrite H. tauto.
  Qed.

  (** insertion-ordered set of a collection = first occurrences *)
  Lemma fold_add_fresh c s : fold_left (lhs_add eqb) c s = s ++ fresh s c.
  Proof.
    revert s; induction c as [|x c IH]; intro s; cbn [fold_left]; [now rewrite app_nil_r|].
    rewrite IH. unfold lhs_add. rewrite contains_member.
    cbn [ListSpec.fresh]. destruct (member x s) eqn:E; [reflexivity|].
    rewrite <- app_assoc. cbn [app]. do 2 f_equal.
    apply fresh_ext. intro y. rewrite in_app_iff. cbn. tauto.
  Qed.

  Lemma fresh_in c s x : In x (fresh s c) <-> In x c /\ ~ In x s.
  Proof.
    revert s; induction c as [|z c IH]; intro s; cbn; [tauto|].
    destruct (member z s) eqn:E.
    - apply member_in in E. rewrite IH. split; [tauto|]. intros [[->|H] H']; tauto.
    - apply member_not_in in E. cbn. rewrite IH. cbn.
      split.
      + intros [->|[H1 H2]]; [tauto|]. split; [tauto|]. intro; apply H2; tauto.
      + intros [[->|H1] H2]; [tauto|]. destruct (eqb_ok z x) as [->|]; [tauto|]. right. tauto.
  Qed.

  Lemma fresh_NoDup c s : NoDup (fresh s c).
  Proof.
    revert s; induction c as [|z c IH]; intro s; cbn; [constructor|].
    destruct (member z s) eqn:E; [apply IH|]. constructor; [|apply IH].
    rewrite fresh_in. cbn. tauto.
  Qed.

  Lemma fresh_filter c s t :
    fresh (t ++ s) c = filter (fun x => negb (member x s)) (fresh t c).
  Proof.
    revert t; induction c as [|z c IH]; intro t; cbn; [reflexivity|].
    assert (Hm : member z (t ++ s) = member z t || member z s).
    { unfold member, ListSpec.member. apply existsb_app. }
    rewrite Hm. destruct (member z t) eqn:Et; cbn; [apply IH|].
    destruct (member z s) eqn:Es; cbn.
    - rewrite <- (IH (z :: t)). apply fresh_ext. intro y. cbn. rewrite in_app_iff.
      apply member_in in Es. split; [tauto|]. intros [<-|?]; tauto.
    - now rewrite <- (IH (z :: t)).
  Qed.

  Lemma fresh_nil_filter c s : fresh s c = filter (fun x => negb (member x s)) (fresh [] c).
  Proof. exact (fresh_filter c s []). Qed.

  (** scanning with no removal before the last position is exact *)
  Lemma lhs_scan_exact rest pre data :
    NoDup (pre ++ rest) ->
    Forall (fun x => ~ In x data) (removelast rest) ->
    lhs_scan eqb (length pre) rest (contains data) (pre ++ rest)
    = pre ++ filter (fun x => negb (member x data)) rest.
  Proof.
    revert pre; induction rest as [|v rest IH]; intros pre Hd HF; cbn [lhs_scan filter]; [reflexivity|].
    destruct (Nat.ltb_spec (length pre) (length (pre ++ v :: rest))) as [_|Hbad];
      [|rewrite app_length in Hbad; cbn in Hbad; lia].
    rewrite contains_member.
    destruct rest as [|w rest].
    - cbn [lhs_scan]. destruct (member v data) eqn:E; cbn; [|reflexivity].
      rewrite lhs_remove_filter by assumption. rewrite filter_app. cbn.
      destruct (eqb_ok v v); [cbn|congruence]. f_equal.
      apply NoDup_middle in Hd as [Hv _]. rewrite app_nil_r in Hv. clear -Hv eqb_ok.
      induction pre as [|y pre IH]; cbn; [reflexivity|].
      destruct (eqb_ok y v) as [->|]; [exfalso; apply Hv; now left|]. cbn. f_equal. apply IH.
      intro; apply Hv; now right.
    - cbn [removelast] in HF. inversion HF as [|? ? Hv HF']; subst.
      rewrite (proj2 (member_not_in v data) Hv). cbn [negb].
      specialize (IH (pre ++ [v])). rewrite <- !app_assoc in IH. cbn [app] in IH.
      rewrite app_length in IH. cbn [length] in IH. rewrite Nat.add_1_r in IH.
      apply IH; assumption.
  Qed.

  Lemma getNonDuplicates_ok data c : bulk_ok eqb data c ->
    getNonDuplicates eqb data c = fresh data c.
  Proof.
    intro H. unfold getNonDuplicates. rewrite fold_add_fresh. cbn [app]. cbv zeta.
    rewrite (fresh_nil_filter c data).
    destruct (Z.leb_spec (zlen data) (zlen (fresh [] c))) as [Hle|Hgt].
    - rewrite fold_remove_filter by apply fresh_NoDup. reflexivity.
    - destruct H as [H|H]; [zl|].
      pose proof (lhs_scan_exact (fresh [] c) [] data) as HS. cbn [app length] in HS.
      apply HS; [apply fresh_NoDup|assumption].
  Qed.

  (** *** RemoveAll *)
  Lemma removeAllLoop_spec c pre post cb m
    (cs : list A) (Hc : c = Ext cs \/ (c = Self /\ post = [] /\ cs = pre)) :
    exists cb',
      removeAllLoop eqb nilv (length pre) (pre ++ post) c cb m =
      Ret (filter (fun x => negb (member x cs)) pre ++ post, cb')
          (RBool (m || existsb (fun x => member x cs) pre)).
  Proof.
    assert (Hext : forall n pre post cb m, length pre = n ->
      exists cb', removeAllLoop eqb nilv n (pre ++ post) (Ext cs) cb m =
      Ret (filter (fun x => negb (member x cs)) pre ++ post, cb')
          (RBool (m || existsb (fun x => member x cs) pre))).
    { clear pre post cb m Hc. intro n; induction n as [|n IH]; intros pre post cb m Hn.
      - destruct pre; [|discriminate]. cbn. rewrite orb_false_r. eexists; reflexivity.
      - destruct (exists_last (l := pre)) as (pre' & v & ->); [destruct pre; discriminate|].
        assert (Hn' : length pre' = n) by (rewrite app_length in Hn; cbn in Hn; lia).
        cbn [removeAllLoop]. rewrite <- app_assoc. cbn [app].
        unfold doGet. rewrite zget_app by zl. cbn [lift elems].
        rewrite contains_member. destruct (member v cs) eqn:E.
        + replace ((Z.of_nat n <? 0) || (Z.of_nat n >=? zlen (pre' ++ v :: post))) with false by zl.
          rewrite (doRemove_eq nilv _ _ v) by (lia || (apply nth_error_mid; zl)).
          cbn [lift]. rewrite delete_at_app by zl.
          destruct (IH pre' post (cb ++ [DidRemove (Z.of_nat n) v; DidChange]) true Hn') as [cb' H].
          exists cb'. rewrite H. f_equal.
          * f_equal. rewrite filter_app. cbn. rewrite E. cbn. now rewrite app_nil_r.
          * f_equal. rewrite existsb_app. cbn. rewrite E, orb_true_r. cbn. now destruct m.
        + destruct (IH pre' (v :: post) cb m Hn') as [cb' H].
          exists cb'. rewrite H. f_equal.
          * f_equal. rewrite filter_app. cbn. rewrite E. cbn. now rewrite <- app_assoc.
          * f_equal. rewrite existsb_app. cbn. rewrite E. now rewrite !orb_false_r. }
    destruct Hc as [->|(-> & -> & ->)]; [apply Hext; reflexivity|].
    clear Hext. revert cb m. rewrite app_nil_r.
    assert (Hself : forall n pre cb m, length pre = n ->
      exists cb', removeAllLoop eqb nilv n pre Self cb m = Ret ([], cb') (RBool (m || negb (n =? 0)%nat))).
    { clear -eqb_ok. intro n; induction n as [|n IH]; intros pre cb m Hn.
      - destruct pre; [|discriminate]. cbn. rewrite orb_false_r. eexists; reflexivity.
      - destruct (exists_last (l := pre)) as (pre' & v & ->); [destruct pre; discriminate|].
        assert (Hn' : length pre' = n) by (rewrite app_length in Hn; cbn in Hn; lia).
        cbn [removeAllLoop]. unfold doGet. rewrite zget_app by zl. cbn [lift elems].
        rewrite contains_member.
        assert (member v (pre' ++ [v]) = true) as ->.
        { apply member_in. rewrite in_app_iff. cbn. tauto. }
        replace ((Z.of_nat n <? 0) || (Z.of_nat n >=? zlen (pre' ++ [v]))) with false by zl.
        rewrite (doRemove_eq nilv _ _ v) by (lia || (apply nth_error_mid; zl)).
        cbn [lift]. rewrite delete_at_app by zl. rewrite app_nil_r.
        destruct (IH pre' (cb ++ [DidRemove (Z.of_nat n) v; DidChange]) true Hn') as [cb' H].
        exists cb'. rewrite H. f_equal. f_equal. now destruct m. }
    intros cb m. destruct (Hself _ pre cb m eq_refl) as [cb' H]. exists cb'. rewrite H.
    assert (Hall : forall l, (forall x, In x l -> In x pre) ->
              filter (fun x => negb (member x pre)) l = []
              /\ existsb (fun x => member x pre) l = negb (length l =? 0)%nat).
    { clear -eqb_ok. intro l; induction l as [|x l IH]; intro Hl; cbn; [split; reflexivity|].
      rewrite (proj2 (member_in x pre)) by (apply Hl; now left). cbn.
      split; [apply IH; intros; apply Hl; now right|reflexivity]. }
    destruct (Hall pre) as [H1 H2]; [auto|]. now rewrite H1, H2.
  Qed.

  (** *** one step *)
  Definition agree (m : outcome (list A * list (callback A)) (res A)) (s : option (list A * res A)) : Prop :=
    match m, s with
    | Ret (d, _) r, Some (d', r') => d = d' /\ r = r'
    | Panic, None => True
    | _, _ => False
    end.

  Lemma zlen_fresh_zero (l : list A) : (zlen l =? 0) = match l with [] => true | _ => false end.
  Proof. destruct l; zl. Qed.

  Ltac bdestr :=
    repeat match goal with
      | |- context [?a <? ?b] => destruct (Z.ltb_spec a b)
      | |- context [?a <=? ?b] => destruct (Z.leb_spec a b)
      | |- context [?a =? ?b] => destruct (Z.eqb_spec a b)
      | |- context [?a >? ?b] => rewrite (Z.gtb_ltb a b)
      | |- context [?a >=? ?b] => rewrite (Z.geb_leb a b)
      end; cbn [negb andb orb]; try lia.

  Lemma step_agrees unique data o : (unique = true -> op_ok eqb data o) ->
    agree (step eqb nilv unique data o) (spec_step eqb unique data o).
  Proof.
    intro Hok. pose proof (zlen_nonneg data) as Hpos.
    destruct o; cbn [step spec_step]; unfold valid, valid_gap.
    - (* Add *) rewrite contains_member. destruct (unique && member e data); cbn; auto.
    - (* AddAll *)
      destruct unique; cbn [andb].
      + rewrite getNonDuplicates_ok by (apply Hok; reflexivity).
        rewrite zlen_fresh_zero. destruct (fresh data (elems data c)); cbn; auto.
      + cbn. auto.
    - (* Insert *) bdestr; cbn; auto.
      rewrite contains_member. destruct (unique && member e data); cbn; auto.
      rewrite doInsert_eq by lia. cbn. auto.
    - (* InsertAll *)
      replace ((i <? 0) || (i >? zlen data)) with (negb ((0 <=? i) && (i <=? zlen data))) by lia.
      destruct ((0 <=? i) && (i <=? zlen data)) eqn:Hi; cbn; auto.
      destruct unique; cbn [andb].
      + rewrite getNonDuplicates_ok by (apply Hok; reflexivity).
        rewrite zlen_fresh_zero. destruct (fresh data (elems data c)); cbn; auto.
        rewrite doInsertAll_eq by lia. cbn. auto.
      + rewrite doInsertAll_eq by lia. cbn. auto.
    - (* MoveObject *) rewrite indexOf_spec.
      destruct (first_pos data e) as [n|] eqn:E; cbn [pos_res].
      + pose proof (proj1 (first_pos_some _ _ _ E)) as Hn.
        assert (Hlt : (n < length data)%nat) by (apply nth_error_Some; congruence).
        destruct (Z.eqb_spec (Z.of_nat n) (-1)); [lia|].
        bdestr; cbn.
        * rewrite (doMove_eq _ _ _ e) by (rewrite ?Nat2Z.id; auto; lia).
          rewrite Nat2Z.id. cbn. auto.
        * rewrite doMove_bad by zl. cbn. exact I.
        * rewrite doMove_bad by zl. cbn. exact I.
      + cbn. exact I.
    - (* Move *) bdestr; cbn; auto.
      + destruct (nth_error_lt_some data (Z.to_nat i)) as [x Hx]; [zl|].
        rewrite Hx. rewrite (doMove_eq _ _ _ x) by (auto; lia). cbn. auto.
      + rewrite doMove_bad by lia. cbn. exact I.
    - (* RemoveAt *) bdestr; cbn; auto.
      destruct (nth_error_lt_some data (Z.to_nat i)) as [x Hx]; [zl|].
      rewrite Hx, (doRemove_eq nilv _ _ x) by (auto; lia). cbn. auto.
    - (* Remove *) rewrite indexOf_spec.
      destruct (first_pos data e) as [n|] eqn:E; cbn [pos_res].
      + pose proof (proj1 (first_pos_some _ _ _ E)) as Hn.
        destruct (Z.eqb_spec (Z.of_nat n) (-1)); [lia|].
        rewrite (doRemove_eq nilv _ _ e) by (rewrite ?Nat2Z.id; auto; lia).
        rewrite Nat2Z.id. cbn. auto.
      + cbn. auto.
    - (* RemoveRange *) bdestr; cbn; auto.
      rewrite doRemoveRange_eq by lia. cbn. auto.
    - (* RemoveAll *)
      destruct c as [cs|].
      + destruct (removeAllLoop_spec (Ext cs) data [] [] false cs) as [cb' H]; [now left|].
        rewrite app_nil_r in H. rewrite H. cbn. rewrite app_nil_r. auto.
      + destruct (removeAllLoop_spec Self data [] [] false data) as [cb' H]; [now right|].
        rewrite app_nil_r in H. rewrite H. cbn. rewrite app_nil_r. auto.
    - (* Get *) bdestr; cbn; auto.
      destruct (nth_error_lt_some data (Z.to_nat i)) as [x Hx]; [zl|].
      unfold doGet, zget. destruct (Z.ltb_spec i 0); [lia|]. rewrite Hx. cbn. auto.
    - (* Set *)
      replace ((i <? 0) || (i >=? zlen data)) with (negb ((0 <=? i) && (i <? zlen data))) by lia.
      destruct ((0 <=? i) && (i <? zlen data)) eqn:Hi; cbn; auto.
      destruct (nth_error_lt_some data (Z.to_nat i)) as [x Hx]; [zl|].
      rewrite Hx, indexOf_spec, Z.geb_leb.
      destruct unique; cbn [andb].
      + destruct (first_pos data e) as [n|] eqn:E; cbn [pos_res].
        * destruct (Z.leb_spec 0 (Z.of_nat n)); [|lia]. cbn [andb].
          destruct (Z.eqb_spec (Z.of_nat n) i), (Nat.eqb_spec n (Z.to_nat i)); cbn; try lia; auto.
          rewrite (doSet_eq _ _ _ x) by (auto; lia). cbn. auto.
        * destruct (Z.leb_spec 0 (-1)); [lia|]. cbn [andb].
          rewrite (doSet_eq _ _ _ x) by (auto; lia). cbn. auto.
      + rewrite (doSet_eq _ _ _ x) by (auto; lia). cbn. auto.
    - cbn. auto.
    - cbn. auto.
    - cbn. rewrite zlen_fresh_zero. auto.
    - cbn. rewrite contains_member. auto.
    - cbn. rewrite indexOf_spec. auto.
    - cbn. auto.
  Qed.

  Lemma run_nonunique_spec data ops : run eqb nilv false data ops = spec_run eqb false data ops.
  Proof.
    revert data; induction ops as [|o ops IH]; intro data; cbn; [reflexivity|].
    pose proof (step_agrees false data o ltac:(discriminate)) as H.
    destruct (step eqb nilv false data o) as [[d cb] r|], (spec_step eqb false data o) as [[d' r']|];
      cbn in H; try tauto.
    destruct H as [-> ->]. now rewrite IH.
  Qed.

  Lemma run_unique_spec data ops : history_ok eqb data ops ->
    run eqb nilv true data ops = spec_run eqb true data ops.
  Proof.
    revert data; induction ops as [|o ops IH]; intros data H; cbn; [reflexivity|].
    cbn in H. destruct H as [Ho H].
    pose proof (step_agrees true data o (fun _ => Ho)) as Ha.
    destruct (step eqb nilv true data o) as [[d cb] r|], (spec_step eqb true data o) as [[d' r']|];
      cbn in Ha; try tauto.
    destruct Ha as [-> ->]. now rewrite IH.
  Qed.

  (** *** NoDup *)
  Lemma NoDup_sub_app (l1 l2 l3 : list A) : NoDup (l1 ++ l2 ++ l3) -> NoDup (l1 ++ l3).
  Proof.
    rewrite !NoDup_app_iff. intros (H1 & (H2 & H3 & H4) & H5). repeat split; auto.
    intros x Hx Hy. apply (H5 x Hx). rewrite in_app_iff. tauto.
  Qed.

  Lemma spec_step_NoDup s o s' r : NoDup s -> spec_step eqb true s o = Some (s', r) -> NoDup s'.
  Proof.
    intros Hd. pose proof (zlen_nonneg s).
    destruct o; cbn [spec_step]; unfold valid, valid_gap; cbn [andb].
    - destruct (member e s) eqn:E; intros [= <- <-]; [assumption|].
      apply member_not_in in E. rewrite <- (app_nil_r s) in Hd, E. now apply NoDup_middle.
    - pose proof (fresh_NoDup (elems s c) s). pose proof (fresh_in (elems s c) s) as Hin.
      destruct (fresh s (elems s c)) as [|y ys]; intros [= <- <-]; [assumption|].
      apply NoDup_app_iff. repeat split; auto. intros x Hx Hy. apply Hin in Hy. tauto.
    - bdestr; try discriminate.
      destruct (member e s) eqn:E; intros [= <- <-]; [assumption|].
      apply member_not_in in E. unfold insert_at. apply NoDup_middle. now rewrite firstn_skipn.
    - bdestr; try discriminate.
      pose proof (fresh_NoDup (elems s c) s) as Hf. pose proof (fresh_in (elems s c) s) as Hin.
      destruct (fresh s (elems s c)) as [|y ys] eqn:E; intros [= <- <-]; [assumption|].
      unfold insert_all_at. rewrite <- (firstn_skipn (Z.to_nat i) s) in Hd.
      apply NoDup_app_iff in Hd as (Hd1 & Hd2 & Hd3).
      apply NoDup_app_iff. split; [assumption|]. split.
      + apply NoDup_app_iff. split; [assumption|]. split; [assumption|].
        intros x Hx Hy. apply Hin in Hx as [_ Hx]. apply Hx.
        rewrite <- (firstn_skipn (Z.to_nat i) s). rewrite in_app_iff. tauto.
      + intros x Hx. rewrite in_app_iff. intros [Hy|Hy]; [|now apply (Hd3 x)].
        apply Hin in Hy as [_ Hy]. apply Hy.
        rewrite <- (firstn_skipn (Z.to_nat i) s). rewrite in_app_iff. tauto.
    - destruct (first_pos s e) as [n|] eqn:E; [|discriminate].
      bdestr; try discriminate. intros [= <- <-].
      apply first_pos_some in E as [E _].
      unfold move, insert_at, delete_at, delete_range.
      rewrite (firstn_skipn_nth _ _ _ E) in Hd.
      apply NoDup_middle in Hd. apply NoDup_middle. rewrite firstn_skipn, Nat.add_1_r. assumption.
    - bdestr; try discriminate. destruct (nth_error s (Z.to_nat i)) as [x|] eqn:E; [|discriminate].
      intros [= <- <-]. unfold move, insert_at, delete_at, delete_range.
      rewrite (firstn_skipn_nth _ _ _ E) in Hd.
      apply NoDup_middle in Hd. apply NoDup_middle. rewrite firstn_skipn, Nat.add_1_r. assumption.
    - bdestr; try discriminate. destruct (nth_error s (Z.to_nat i)) as [x|] eqn:E; [|discriminate].
      intros [= <- <-]. unfold delete_at, delete_range.
      rewrite (firstn_skipn_nth _ _ _ E) in Hd.
      apply NoDup_middle in Hd. rewrite Nat.add_1_r. tauto.
    - destruct (first_pos s e) as [n|] eqn:E; intros [= <- <-]; [|assumption].
      apply first_pos_some in E as [E _]. unfold delete_at, delete_range.
      rewrite (firstn_skipn_nth _ _ _ E) in Hd.
      apply NoDup_middle in Hd. rewrite Nat.add_1_r. tauto.
    - bdestr; try discriminate. intros [= <- <-]. unfold delete_range.
      apply (NoDup_sub_app _ (firstn (Z.to_nat j - Z.to_nat i) (skipn (Z.to_nat i) s))).
      assert (Hsk : skipn (Z.to_nat j) s = skipn (Z.to_nat j - Z.to_nat i) (skipn (Z.to_nat i) s)).
      { rewrite <- (firstn_skipn (Z.to_nat i) s) at 1. rewrite skipn_app.
        rewrite firstn_length. rewrite skipn_all2 by zl. cbn. f_equal. zl. }
      rewrite Hsk, firstn_skipn, firstn_skipn. assumption.
    - intros [= <- <-]. now apply NoDup_filter.
    - bdestr; try discriminate. destruct (nth_error s (Z.to_nat i)); [|discriminate]. now intros [= <- <-].
    - bdestr; try discriminate. destruct (nth_error s (Z.to_nat i)) as [y|] eqn:E; [|discriminate].
      destruct (first_pos s e) as [k|] eqn:Ek.
      + destruct (Nat.eqb_spec k (Z.to_nat i)); cbn; [|discriminate]. intros [= <- <-].
        apply first_pos_some in Ek as [Ek _]. subst k. unfold replace_at.
        rewrite Nat.add_1_r. rewrite <- (firstn_skipn_nth _ _ _ Ek). assumption.
      + intros [= <- <-]. apply first_pos_none in Ek. unfold replace_at. rewrite Nat.add_1_r.
        rewrite (firstn_skipn_nth _ _ _ E) in Hd, Ek.
        apply NoDup_middle in Hd as [_ Hd]. apply NoDup_middle. split; [|assumption].
        rewrite in_app_iff in *. cbn in Ek. tauto.
    - intros [= <- <-]. constructor.
    - now intros [= <- <-].
    - now intros [= <- <-].
    - now intros [= <- <-].
    - now intros [= <- <-].
    - now intros [= <- <-].
  Qed.

  Lemma run_unique_NoDup data ops rs fin : NoDup data -> history_ok eqb data ops ->
    run eqb nilv true data ops = (rs, Some fin) -> NoDup fin.
  Proof.
    intros Hd Hh. rewrite run_unique_spec by assumption. revert data rs fin Hd Hh.
    induction ops as [|o ops IH]; intros data rs fin Hd Hh; cbn.
    - now intros [= <- <-].
    - cbn in Hh. destruct Hh as [_ Hh].
      destruct (spec_step eqb true data o) as [[s' r]|] eqn:E; [|discriminate].
      destruct (spec_run eqb true s' ops) as [rs' fin'] eqn:E'. intros [= <- ->].
      eapply IH; [|exact Hh|exact E']. eapply spec_step_NoDup; eassumption.
  Qed.
End ListProofs.
