From Verif Require Import Base ListModel ListSpec NotifyModel NotifySpec ListProofs NotifyProofs StoreListModel StoreListSpec.

Section StoreListProofs.
  Context {A : Type} (eqb : A -> A -> bool) (nilv : A).
  Context (eqb_ok : forall x y, reflect (x = y) (eqb x y)).

  (** *** the store contract and the primitives of the array list agree *)
  Lemma st_get_zget (l : list A) i : st_get l i = zget l i.
  Proof.
    unfold st_get, zget. destruct (Z.leb_spec 0 i), (Z.ltb_spec i (zlen l)), (Z.ltb_spec i 0); cbn; try lia; try reflexivity.
    symmetry. apply nth_error_None. zl.
  Qed.
  Lemma st_get_some (l : list A) i x : st_get l i = Some x -> nth_error l (Z.to_nat i) = Some x /\ 0 <= i < zlen l.
  Proof.
    unfold st_get. destruct (Z.leb_spec 0 i), (Z.ltb_spec i (zlen l)); cbn; intro H1; try discriminate. auto.
  Qed.
  Lemma st_get_none (l : list A) i : st_get l i = None -> ~ (0 <= i < zlen l).
  Proof.
    rewrite st_get_zget. unfold zget. destruct (Z.ltb_spec i 0); [intros _ ?; lia|].
    intro H1. apply nth_error_None in H1. zl.
  Qed.
  Lemma st_add_eq (l : list A) i e : 0 <= i <= zlen l -> st_add l i e = Some (insert_at (Z.to_nat i) e l).
  Proof.
    intro H. unfold st_add. destruct (Z.leb_spec 0 i), (Z.leb_spec i (zlen l)); try lia. reflexivity.
  Qed.
  Lemma st_add_all_eq (l : list A) i c : 0 <= i <= zlen l -> st_add_all l i c = Some (insert_all_at (Z.to_nat i) c l).
  Proof.
    intro H. unfold st_add_all. destruct (Z.leb_spec 0 i), (Z.leb_spec i (zlen l)); try lia. reflexivity.
  Qed.
  Lemma st_remove_eq (l : list A) i : 
    st_remove l i = option_map (fun x => (delete_at (Z.to_nat i) l, x)) (st_get l i).
  Proof. unfold st_remove. destruct (st_get l i); reflexivity. Qed.
  Lemma st_set_eq (l : list A) i e :
    st_set l i e = option_map (fun x => (replace_at (Z.to_nat i) e l, x)) (st_get l i).
  Proof. unfold st_set. destruct (st_get l i); reflexivity. Qed.

  Lemma doRemove_cases (l : list A) i :
    doRemove nilv l i = option_map (fun x => (delete_at (Z.to_nat i) l, x, [DidRemove i x; DidChange])) (st_get l i).
  Proof.
    destruct (st_get l i) as [x|] eqn:E; cbn.
    - apply st_get_some in E. apply doRemove_eq; tauto.
    - unfold doRemove. rewrite <- st_get_zget, E. reflexivity.
  Qed.
  Lemma doSet_cases (l : list A) i e :
    doSet l i e = option_map (fun x => (replace_at (Z.to_nat i) e l, x, [DidSet i e x; DidChange])) (st_get l i).
  Proof.
    destruct (st_get l i) as [x|] eqn:E; cbn.
    - apply st_get_some in E. apply doSet_eq; tauto.
    - unfold doSet. rewrite <- st_get_zget, E. reflexivity.
  Qed.
  Lemma delete_at_length (l : list A) i : 0 <= i < zlen l -> zlen (delete_at (Z.to_nat i) l) = zlen l - 1.
  Proof.
    intro H. destruct (split_elem l i) as (l1 & x & l2 & -> & Hl); [lia|].
    rewrite delete_at_app by lia. zl.
  Qed.
  Lemma replace_at_length (l : list A) i e : 0 <= i < zlen l -> zlen (replace_at (Z.to_nat i) e l) = zlen l.
  Proof.
    intro H. destruct (split_elem l i) as (l1 & x & l2 & -> & Hl); [lia|].
    rewrite replace_at_app by lia. zl.
  Qed.
  Lemma insert_at_length (l : list A) i e : 0 <= i <= zlen l -> zlen (insert_at (Z.to_nat i) e l) = zlen l + 1.
  Proof.
    intro H. destruct (split_at l i) as (l1 & l2 & -> & Hl); [lia|].
    rewrite insert_at_app by lia. zl.
  Qed.
  Lemma insert_all_at_length (l c : list A) i : 0 <= i <= zlen l -> zlen (insert_all_at (Z.to_nat i) c l) = zlen l + zlen c.
  Proof.
    intro H. unfold insert_all_at. rewrite <- (firstn_skipn (Z.to_nat i) l) at 3. zl.
  Qed.

  Definition agree3 {X} (a : option (list A * X * list (callback A))) (b : option (list A * X * list (scallback A))) : Prop :=
    match a, b with
    | Some (l1, x1, _), Some (l2, x2, _) => l1 = l2 /\ x1 = x2
    | None, None => True
    | _, _ => False
    end.

  Lemma move_agree (l : list A) i j :
    agree3 (doMove l i j)
           (let? (t', x) := st_move l i j in Some (t', x, [CB (DidMove j x i); CB DidChange])).
  Proof.
    unfold st_move. rewrite st_remove_eq.
    destruct (st_get l i) as [x|] eqn:E; cbn [option_map obind].
    - apply st_get_some in E as [E H].
      destruct (Z.leb_spec 0 j); [destruct (Z.ltb_spec j (zlen l))|].
      + rewrite (doMove_eq l i j x) by (assumption || lia).
        rewrite st_add_eq by (rewrite delete_at_length by assumption; lia). cbn. auto.
      + rewrite doMove_bad by lia. unfold st_add. rewrite delete_at_length by assumption.
        destruct (Z.leb_spec j (zlen l - 1)); [lia|]. destruct (0 <=? j); exact I.
      + rewrite doMove_bad by lia. unfold st_add.
        destruct (Z.leb_spec 0 j); [lia|]. exact I.
    - unfold doMove. rewrite <- st_get_zget, E. exact I.
  Qed.

  Lemma removeLoop_eq n : forall (l : list A) i acc, 0 <= i -> i + Z.of_nat n <= zlen l ->
    exists cb, removeLoop n l i acc
               = Some (delete_range (Z.to_nat i) (Z.to_nat i + n) l,
                       acc ++ firstn n (skipn (Z.to_nat i) l), cb).
  Proof.
    induction n as [|n IH]; intros l i acc Hi Hn; cbn [removeLoop].
    - exists []. unfold delete_range. cbn [firstn]. rewrite app_nil_r, Nat.add_0_r, firstn_skipn. reflexivity.
    - rewrite st_remove_eq.
      destruct (split_elem l i) as (l1 & x & l2 & -> & Hl); [lia|].
      rewrite st_get_zget, zget_app by lia. cbn [option_map obind].
      rewrite delete_at_app by lia.
      destruct (IH (l1 ++ l2) i (acc ++ [x]) Hi) as [cb E]; [zl|].
      rewrite E. cbn [obind]. eexists. f_equal. f_equal. f_equal.
      + unfold delete_range. rewrite !firstn_exact by zl. f_equal.
        replace (l1 ++ x :: l2) with ((l1 ++ [x]) ++ l2) by now rewrite <- app_assoc.
        rewrite (skipn_app _ (l1 ++ [x]) l2), (skipn_app _ l1 l2). rewrite (skipn_all2 l1) by zl. rewrite (skipn_all2 (l1 ++ [x])) by zl. cbn [app]. f_equal. rewrite app_length. cbn [length]. lia.
      + rewrite !skipn_exact by zl. cbn [firstn]. rewrite <- app_assoc. reflexivity.
  Qed.

  Lemma perform_sim {X} (s : slist A) l fd fs (dflt : X) ns : holds s l -> agree3 (fd l) (fs l) ->
    match fd l with
    | None => perform s fd fs dflt ns = None
    | Some (l', x, cb) =>
        exists s' cbs, perform s fd fs dflt ns = Some (s', x, cbs)
          /\ (ns x = zlen l' -> holds s' l')
          /\ (option_map snd (fs l) = Some (map CB cb) -> cbs = map CB cb)
    end.
  Proof.
    intros (Hd & Ht & Hs) Ha. unfold perform.
    destruct s as [d t c z]; cbn in *. destruct Hd as [->|(-> & -> & Hc)].
    - destruct (fd l) as [[[l' x] cb]|] eqn:E1, (fs l) as [[[l2 x2] cb2]|] eqn:E2; cbn in Ha; try contradiction.
      + destruct Ha as [<- <-]. cbn [obind]. destruct Ht as [->| ->].
        * cbn [obind]. eexists _, _. split; [reflexivity|]. split; [|auto].
          intro Hn. repeat split; cbn; auto.
        * cbn [obind]. rewrite E2. cbn [obind]. eexists _, _. split; [reflexivity|]. split; [|auto].
          intro Hn. repeat split; cbn; auto.
      + reflexivity.
    - destruct (fd l) as [[[l' x] cb]|] eqn:E1, (fs l) as [[[l2 x2] cb2]|] eqn:E2; cbn in Ha; try contradiction.
      + destruct Ha as [<- <-]. cbn [obind]. eexists _, _. split; [reflexivity|]. split.
        * intro Hn. repeat split; cbn; auto.
        * cbn. congruence.
      + reflexivity.
  Qed.

  (** *** queries *)
  Lemma indexOf_holds (s : slist A) l e : holds s l -> indexOf_s eqb s e = indexOf eqb l e.
  Proof.
    intros (Hd & Ht & _). unfold indexOf_s, st_indexOf. destruct Hd as [->|(-> & -> & Hc)]; reflexivity.
  Qed.
  Lemma contains_holds (s : slist A) l e : holds s l -> contains_s eqb s e = contains eqb l e.
  Proof.
    intros H. unfold contains_s. rewrite (indexOf_holds s l e H). destruct H as (Hd & _ & _).
    destruct Hd as [->|(-> & -> & Hc)]; [reflexivity|].
    rewrite (contains_member eqb eqb_ok). unfold st_contains, member.
    induction l as [|x l IH]; cbn; [reflexivity|].
    rewrite IH. f_equal. destruct (eqb_ok x e), (eqb_ok e x); congruence.
  Qed.
  Lemma get_holds (s : slist A) l i : holds s l -> get nilv s i = zget l i.
  Proof.
    intros (Hd & _ & _). unfold get. destruct Hd as [->|(-> & -> & Hc)]; [reflexivity|]. apply st_get_zget.
  Qed.
  Lemma items_from_holds (s : slist A) l l2 : forall l1, holds s l -> l = l1 ++ l2 ->
    items_from nilv (length l2) (zlen l1) s = Some l2.
  Proof.
    induction l2 as [|x l2 IH]; intros l1 H E; cbn [length items_from]; [reflexivity|].
    rewrite (get_holds s l _ H), E, zget_app by reflexivity. cbn [obind].
    replace (zlen l1 + 1) with (zlen (l1 ++ [x])) by zl.
    rewrite (IH (l1 ++ [x])); [reflexivity|assumption|]. rewrite E, <- app_assoc. reflexivity.
  Qed.
  Lemma items_holds (s : slist A) l : holds s l -> items nilv s = Some l.
  Proof.
    intro H. unfold items. destruct H as (Hd & Ht & Hs). rewrite Hs.
    replace (Z.to_nat (zlen l)) with (length l) by zl.
    change 0 with (zlen (@nil A)). apply (items_from_holds s l l []); [|reflexivity].
    repeat split; auto.
  Qed.
  Lemma toArray_holds (s : slist A) l : holds s l -> toArray s = l.
  Proof.
    intros (Hd & _ & _). unfold toArray. destruct Hd as [->|(-> & -> & Hc)]; [reflexivity|].
    destruct l; reflexivity.
  Qed.
  Lemma elems_holds (s : slist A) l c : holds s l -> elems_s nilv s c = Some (elems l c).
  Proof. intro H. destruct c; cbn; [reflexivity|]. apply items_holds, H. Qed.
  Lemma lhs_scan_ext (f g : A -> bool) : (forall x, f x = g x) ->
    forall rest k h, lhs_scan eqb k rest f h = lhs_scan eqb k rest g h.
  Proof.
    intros H rest. induction rest as [|v rest IH]; intros k h; cbn; [reflexivity|].
    rewrite H, IH. reflexivity.
  Qed.
  Lemma getNonDuplicates_holds (s : slist A) l c : holds s l ->
    getNonDuplicates_s eqb nilv s c = Some (getNonDuplicates eqb l c).
  Proof.
    intro H. unfold getNonDuplicates_s, getNonDuplicates. rewrite (items_holds s l H).
    destruct H as (Hd & Ht & Hs) eqn:EH. clear EH. rewrite Hs. cbv zeta.
    destruct (_ <=? _); cbn [obind]; [reflexivity|]. f_equal.
    apply lhs_scan_ext. intro x. apply contains_holds. repeat split; auto.
  Qed.

  (** *** simulation of the notifying list *)
  Definition simulates (so : @sout A) (no : @nout A) : Prop :=
    match so, no with
    | Ret (s', ns, _) r, Ret (l', ns') r' => ns = ns' /\ r = r' /\ holds s' l'
    | Panic, Panic => True
    | _, _ => False
    end.

  Lemma sim_ret (s : slist A) l r : holds s l -> simulates (sret s [] [] r) (nret l [] r).
  Proof. intro H. cbn. auto. Qed.

  (** one performXxx call against one doXxx call *)
  Lemma sim_perform {X} (s : slist A) l fd fs (dflt : X) ns (k : slist A * X * list (scallback A) -> @sout A)
      (k' : list A * X * list (callback A) -> @nout A) :
    holds s l -> agree3 (fd l) (fs l) ->
    (forall s' l' x cb cb', fd l = Some (l', x, cb') ->
        (ns x = zlen l' -> holds s' l') -> simulates (k (s', x, cb)) (k' (l', x, cb'))) ->
    simulates (slift (perform s fd fs dflt ns) k) (nlift (fd l) k').
  Proof.
    intros H Ha Hk. pose proof (perform_sim s l fd fs dflt ns H Ha) as P.
    destruct (fd l) as [[[l' x] cb]|] eqn:E; cbn [nlift].
    - destruct P as (s' & cbs & -> & Hh & _). cbn [slift]. apply Hk; auto.
    - rewrite P. exact I.
  Qed.

  Lemma add_agree (s : slist A) l e : holds s l ->
    agree3 (let? (d', cb) := doAdd l e in Some (d', tt, cb))
           (let? t' := st_add l (size s) e in Some (t', tt, [CB (DidAdd (size s) e); CB DidChange])).
  Proof.
    intros (_ & _ & Hs). rewrite Hs. pose proof (zlen_nonneg l).
    rewrite st_add_eq by lia. cbn. split; [|reflexivity].
    unfold insert_at. rewrite firstn_all2 by zl. rewrite skipn_all2 by zl. reflexivity.
  Qed.
  Lemma insert_agree (l : list A) i e : 0 <= i <= zlen l ->
    agree3 (let? (d', cb) := doInsert nilv l i e in Some (d', tt, cb))
           (let? t' := st_add l i e in Some (t', tt, [CB (DidAdd i e); CB DidChange])).
  Proof. intro H. rewrite doInsert_eq, st_add_eq by lia. cbn. auto. Qed.
  Lemma clear_agree (l : list A) : agree3 (doClear l) (Some ([], l, [CB (DidClear l)])).
  Proof. cbn. auto. Qed.
  Lemma remove_agree (l : list A) i :
    agree3 (doRemove nilv l i) (let? (t', x) := st_remove l i in Some (t', x, [CB (DidRemove i x); CB DidChange])).
  Proof.
    rewrite doRemove_cases, st_remove_eq. destruct (st_get l i); cbn; auto.
  Qed.
  Lemma set_agree (l : list A) i e :
    agree3 (doSet l i e) (let? (t', x) := st_set l i e in Some (t', x, [CB (DidSet i e x); CB DidChange])).
  Proof.
    rewrite doSet_cases, st_set_eq. destruct (st_get l i); cbn; auto.
  Qed.
  Lemma removeRange_agree (l : list A) i j : 0 <= i <= j -> j <= zlen l ->
    agree3 (doRemoveRange l i j)
           (let? (t', objects, cb) := removeLoop (Z.to_nat (j - i)) l i [] in Some (t', objects, cb ++ [CB DidChange])).
  Proof.
    intros H Hj. rewrite doRemoveRange_eq by lia.
    destruct (removeLoop_eq (Z.to_nat (j - i)) l i []) as [cb ->]; [lia|lia|]. cbn.
    split; [|reflexivity]. f_equal. lia.
  Qed.

  Lemma size_holds (s : slist A) l : holds s l -> size s = zlen l.
  Proof. intros (_ & _ & H). exact H. Qed.

  Lemma removePositions_sim ps : forall (s : slist A) l, holds s l ->
    match removePositions nilv l ps with
    | None => removePositions_s nilv s ps = None
    | Some l' => exists s' cb, removePositions_s nilv s ps = Some (s', cb) /\ holds s' l'
    end.
  Proof.
    induction ps as [|p ps IH]; intros s l H; cbn [removePositions removePositions_s].
    - eauto.
    - unfold performRemove.
      pose proof (perform_sim s l (fun d => doRemove nilv d p)
        (fun t => let? (t', x) := st_remove t p in Some (t', x, [CB (DidRemove p x); CB DidChange]))
        nilv (fun _ => size s - 1) H (remove_agree l p)) as P. cbv beta in P.
      destruct (doRemove nilv l p) as [[[l' x] cb]|] eqn:E; cbn [obind].
      + destruct P as (s' & cbs & -> & Hh & _). cbn [obind].
        rewrite doRemove_cases in E. destruct (st_get l p) as [y|] eqn:G; cbn in E; [|discriminate].
        injection E as <- _ _. apply st_get_some in G.
        assert (H' : holds s' (delete_at (Z.to_nat p) l)).
        { apply Hh. rewrite (size_holds _ _ H), delete_at_length by tauto. reflexivity. }
        specialize (IH s' _ H').
        destruct (removePositions nilv (delete_at (Z.to_nat p) l) ps).
        * destruct IH as (s'' & cb' & -> & H''). cbn. eauto.
        * rewrite IH. reflexivity.
      + rewrite P. reflexivity.
  Qed.

  Lemma doInsertAll_s_fixed (s : slist A) l i c : holds s l -> 0 <= i <= zlen l ->
    match ndoInsertAll l i c (fun _ => c) with
    | Some (l', ns) => exists s' cb, doInsertAll_s s i (fixed c) = Some (s', ns, cb) /\ holds s' l'
    | None => False
    end.
  Proof.
    intros H Hi. unfold ndoInsertAll, doInsertAll_s. cbn [count fixed].
    destruct c as [|x c]; [cbn; eauto|].
    rewrite doInsertAll_eq by assumption.
    destruct (Z.eqb_spec (zlen (x :: c)) 0); [exfalso; zl|]. cbn [obind].
    unfold performInsertAll. cbn [now walk count fixed].
    destruct H as (Hd & Ht & Hs). destruct s as [d t ch z]; cbn [StoreListModel.data StoreListModel.store size cache] in *.
    pose proof (insert_all_at_length l (x :: c) i Hi) as HL.
    destruct Hd as [->|(-> & -> & Hc)].
    - rewrite doInsertAll_eq by assumption. cbn [obind].
      destruct (Z.eqb_spec (zlen (x :: c)) 0); [exfalso; zl|]. cbn [negb].
      destruct Ht as [->| ->]; cbn [obind].
      + eexists _, _. split; [reflexivity|]. repeat split; cbn -[zlen]; auto. lia.
      + rewrite st_add_all_eq by assumption. cbn [obind].
        eexists _, _. split; [reflexivity|]. repeat split; cbn -[zlen]; auto. lia.
    - cbn [obind]. rewrite st_add_all_eq by assumption. cbn [obind].
      eexists _, _. split; [reflexivity|]. repeat split; cbn -[zlen]; auto. lia.
  Qed.

  Lemma bulk_sim unique (s : slist A) l i c : holds s l -> 0 <= i <= zlen l -> (unique = false -> c <> Self) ->
    simulates (bulk eqb nilv unique s i c)
      (let xs := if unique then getNonDuplicates eqb l (elems l c) else elems l c in
       let late d := if unique then xs else elems d c in
       if unique && (zlen xs =? 0) then nret l [] (RBool false)
       else nlift (ndoInsertAll l i xs late) (fun '(d, ns) => nret d ns (RBool true))).
  Proof.
    intros H Hi Hc. unfold bulk. destruct unique; cbn [andb]; cbv zeta.
    - rewrite (elems_holds s l c H). cbn [slift]. rewrite (getNonDuplicates_holds s l _ H). cbn [slift].
      destruct (_ =? 0); [apply sim_ret, H|].
      pose proof (doInsertAll_s_fixed s l i (getNonDuplicates eqb l (elems l c)) H Hi) as P.
      destruct (ndoInsertAll _ _ _ _) as [[l' ns]|]; [|contradiction].
      destruct P as (s' & cb & -> & H'). cbn. auto.
    - destruct c as [xs|]; [|exfalso; now apply Hc]. cbn [elems source_of].
      pose proof (doInsertAll_s_fixed s l i xs H Hi) as P.
      destruct (ndoInsertAll _ _ _ _) as [[l' ns]|]; [|contradiction].
      destruct P as (s' & cb & -> & H'). cbn. auto.
  Qed.

  Definition nop_ok (unique : bool) (o : nop A) : Prop :=
    match o with
    | L (AddAll c) | L (InsertAll _ c) => unique = false -> c <> Self
    | _ => True
    end.

  Lemma scan_no_collection i l : scanRemoved eqb i l [] = [].
  Proof. revert i; induction l; intro i; cbn; auto. Qed.

  Lemma indexOf_nonneg l e : indexOf eqb l e <> -1 -> 0 <= indexOf eqb l e < zlen l.
  Proof.
    unfold indexOf. rewrite (indexOf_from_spec eqb). destruct (first_pos eqb l e) as [n|] eqn:E; [|lia].
    intros _. destruct (first_pos_some eqb eqb_ok _ _ _ E) as [H _].
    assert (n < length l)%nat by (apply nth_error_Some; congruence). zl.
  Qed.

  Lemma sstep_nstep unique (s : slist A) l o : holds s l -> nop_ok unique o ->
    simulates (sstep eqb nilv unique s (N o)) (nstep eqb nilv unique l o).
  Proof.
    intros H Hok. pose proof (size_holds s l H) as Hs. pose proof (zlen_nonneg l) as Hpos.
    assert (Hmove : forall i j, forall (r : A -> res A) (n : A -> list (notification A)),
      simulates (slift (performMove nilv s i j) (fun '(s', x, cb) => sret s' (n x) cb (r x)))
                (nlift (doMove l i j) (fun '(d, x, _) => nret d (n x) (r x)))).
    { intros i j r n. unfold performMove. apply (sim_perform s l (fun d => doMove d i j)).
      - exact H. 
      - apply move_agree.
      - intros s' l' x cb cb' E Hh. cbn. split; [reflexivity|]. split; [reflexivity|]. apply Hh.
        pose proof (move_agree l i j) as M. rewrite E in M. unfold st_move in M. rewrite st_remove_eq in M.
        destruct (st_get l i) as [y|] eqn:G; cbn [option_map obind] in M; [|contradiction].
        apply st_get_some in G as [G Hi]. unfold st_add in M. rewrite delete_at_length in M by assumption.
        destruct ((0 <=? j) && (j <=? zlen l - 1)) eqn:B; cbn in M; [|contradiction].
        destruct M as [-> _]. apply andb_prop in B as [B1 B2]. apply Z.leb_le in B1, B2.
        fold (insert_at (Z.to_nat j) y (delete_at (Z.to_nat i) l)).
        rewrite insert_at_length; rewrite delete_at_length by assumption; lia. }
    assert (Hremove : forall i, forall (r : A -> res A) (n : A -> list (notification A)),
      simulates (slift (performRemove nilv s i) (fun '(s', x, cb) => sret s' (n x) cb (r x)))
                (nlift (doRemove nilv l i) (fun '(d, x, _) => nret d (n x) (r x)))).
    { intros i r n. unfold performRemove. apply (sim_perform s l (fun d => doRemove nilv d i)).
      - exact H. 
      - apply remove_agree.
      - intros s' l' x cb cb' E Hh. cbn. split; [reflexivity|]. split; [reflexivity|]. apply Hh.
        rewrite doRemove_cases in E. destruct (st_get l i) as [y|] eqn:G; cbn in E; [|discriminate].
        injection E as <- _ _. apply st_get_some in G. rewrite delete_at_length by tauto. lia. }
    assert (Hset : forall i e, forall (r : A -> res A) (n : A -> list (notification A)),
      simulates (slift (performSet nilv s i e) (fun '(s', x, cb) => sret s' (n x) cb (r x)))
                (nlift (doSet l i e) (fun '(d, x, _) => nret d (n x) (r x)))).
    { intros i e r n. unfold performSet. apply (sim_perform s l (fun d => doSet d i e)).
      - exact H. 
      - apply set_agree.
      - intros s' l' x cb cb' E Hh. cbn. split; [reflexivity|]. split; [reflexivity|]. apply Hh.
        rewrite doSet_cases in E. destruct (st_get l i) as [y|] eqn:G; cbn in E; [|discriminate].
        injection E as <- _ _. apply st_get_some in G. rewrite replace_at_length by tauto. lia. }
    assert (Hadd : forall e (r : res A) (n : list (notification A)),
      simulates (slift (performAdd s e) (fun '(s', _, cb) => sret s' n cb r))
                (nlift (doAdd l e) (fun '(d, _) => nret d n r))).
    { intros e r n. unfold performAdd.
      pose proof (sim_perform s l (fun d => let? (d', cb) := doAdd d e in Some (d', tt, cb))
        (fun t => let? t' := st_add t (size s) e in Some (t', tt, [CB (DidAdd (size s) e); CB DidChange]))
        tt (fun _ => size s + 1) (fun '(s', _, cb) => sret s' n cb r) (fun '(d, _, _) => nret d n r) H
        (add_agree s l e H)) as P.
      apply P. intros s' l' x cb cb' E Hh. cbn in E. injection E as <- _ _. cbn.
      split; [reflexivity|]. split; [reflexivity|]. apply Hh. rewrite Hs. zl. }
    destruct o as [o|e|e|i e]; [destruct o|..]; cbn [sstep nstep];
      rewrite ?(contains_holds s l _ H), ?(indexOf_holds s l _ H), ?Hs.
    - destruct (unique && contains eqb l e); [apply sim_ret, H|apply Hadd].
    - apply bulk_sim; [exact H|lia|exact Hok].
    - destruct ((i <? 0) || (i >? zlen l)) eqn:B; [exact I|].
      destruct (unique && contains eqb l e); [apply sim_ret, H|].
      assert (Hi : 0 <= i <= zlen l).
      { apply Bool.orb_false_elim in B as [B1 B2]. apply Z.ltb_ge in B1. rewrite Z.gtb_ltb in B2. apply Z.ltb_ge in B2. lia. }
      unfold performInsert.
      pose proof (sim_perform s l (fun d => let? (d', cb) := doInsert nilv d i e in Some (d', tt, cb))
        (fun t => let? t' := st_add t i e in Some (t', tt, [CB (DidAdd i e); CB DidChange]))
        tt (fun _ => size s + 1) (fun '(s', _, cb) => sret s' [Notif ADD PNil (PObj e) i] cb (RBool true))
        (fun '(d, _, _) => nret d [Notif ADD PNil (PObj e) i] (RBool true)) H
        (insert_agree l i e Hi)) as P. cbv beta in P.
      rewrite doInsert_eq in * by lia. apply P.
      intros s' l' x cb cb' E Hh. cbn in E. injection E as <- _ _. cbn.
      split; [reflexivity|]. split; [reflexivity|]. apply Hh. rewrite Hs, insert_at_length by lia. lia.
    - destruct ((i <? 0) || (i >? zlen l)) eqn:B; [exact I|].
      apply bulk_sim; [exact H| |exact Hok].
      apply Bool.orb_false_elim in B as [B1 B2]. apply Z.ltb_ge in B1. rewrite Z.gtb_ltb in B2. apply Z.ltb_ge in B2. lia.
    - destruct (_ =? -1); [exact I|].
      apply (Hmove _ _ (fun _ => RUnit) (fun x => [Notif MOVE (PInt (indexOf eqb l e)) (PObj x) i])).
    - destruct (_ || _); [exact I|].
      apply (Hmove _ _ (fun x => RElem x) (fun x => [Notif MOVE (PInt i) (PObj x) j])).
    - destruct (_ || _); [exact I|].
      apply (Hremove _ (fun x => RElem x) (fun x => [Notif REMOVE (PObj x) PNil i])).
    - destruct (_ =? -1); [apply sim_ret, H|].
      apply (Hremove _ (fun x => RBool true) (fun x => [Notif REMOVE (PObj x) PNil (indexOf eqb l e)])).
    - destruct ((i <? 0) || (i >=? zlen l)) eqn:B; [exact I|].
      destruct ((j <? 0) || (j >? zlen l)) eqn:B2; [exact I|].
      destruct (i >? j) eqn:B3; [exact I|].
      assert (Hi : 0 <= i <= j /\ j <= zlen l).
      { apply Bool.orb_false_elim in B as [B1 _], B2 as [_ B2]. apply Z.ltb_ge in B1. rewrite Z.gtb_ltb in B2, B3. apply Z.ltb_ge in B2, B3. lia. }
      unfold performRemoveRange. apply (sim_perform s l (fun d => doRemoveRange d i j)).
      + exact H.
      + apply removeRange_agree; tauto.
      + intros s' l' x cb cb' E Hh. cbn. split; [reflexivity|]. split; [reflexivity|]. apply Hh.
        rewrite doRemoveRange_eq in E by lia. injection E as <- <- _. rewrite Hs.
        unfold delete_range. zl.
    - rewrite (elems_holds s l c H). cbn [slift].
      assert (Hits : exists its, (match elems l c with [] => Some [] | _ => items nilv s end) = Some its
                /\ scanRemoved eqb 0 its (elems l c) = scanRemoved eqb 0 l (elems l c)).
      { destruct (elems l c) as [|y ys]; [exists []; split; [reflexivity|]; rewrite !scan_no_collection; reflexivity|].
        exists l. split; [apply items_holds, H|reflexivity]. }
      destruct Hits as (its & -> & Hits). cbn [slift]. rewrite Hits. clear Hits.
      pose proof (removePositions_sim (rev (map fst (scanRemoved eqb 0 l (elems l c)))) s l H) as P.
      destruct (removePositions nilv l _) as [l'|].
      + destruct P as (s' & cb & -> & H'). cbn [slift nlift].
        destruct (scanRemoved eqb 0 l (elems l c)) as [|[p x] pr]; cbn; auto.
      + rewrite P. exact I.
    - destruct (_ || _); [exact I|]. rewrite (get_holds s l _ H). unfold doGet.
      destruct (zget l i); cbn; auto.
    - destruct (_ || _); [exact I|]. destruct (unique && _); [exact I|].
      apply (Hset _ _ (fun x => RElem x) (fun old => if eqb e old then [] else [Notif SET (PObj old) (PObj e) i])).
    - unfold performClear. apply (sim_perform s l (fun d => doClear d)).
      + exact H.
      + apply clear_agree.
      + intros s' l' x cb cb' E Hh. cbn. split; [reflexivity|]. split; [reflexivity|]. apply Hh.
        injection E as <- _ _. reflexivity.
    - cbn. auto.
    - cbn. auto.
    - cbn. auto.
    - cbn. auto.
    - cbn. rewrite (toArray_holds s l H). auto.
    - apply Hadd.
    - destruct (_ =? -1); [apply sim_ret, H|].
      apply (Hremove _ (fun x => RUnit) (fun x => [Notif REMOVE (PObj x) PNil (indexOf eqb l e)])).
    - apply (Hset _ _ (fun x => RUnit) (fun old => [Notif SET (PObj old) (PObj e) i])).
  Qed.

  Lemma setCache_holds (s : slist A) l b : holds s l -> holds (setCache s b) l.
  Proof.
    intros (Hd & Ht & Hs). unfold setCache. destruct (Bool.eqb (cache s) b); [repeat split; auto|].
    destruct s as [d t c z]; cbn in *. destruct b.
    - destruct Ht as [->| ->].
      + destruct Hd as [->|(_ & Hd & _)]; [|discriminate]. repeat split; cbn; auto.
      + repeat split; cbn; auto. left. destruct l; reflexivity.
    - destruct Ht as [->| ->].
      + destruct Hd as [->|(_ & Hd & _)]; [|discriminate]. repeat split; cbn; auto.
      + repeat split; cbn; auto.
  Qed.
  Lemma setEStore_holds (s : slist A) l st : holds s l ->
    match st with Some t => t = l | None => l <> [] end -> holds (setEStore s st) l.
  Proof.
    intros (Hd & Ht & Hs) Hst. destruct s as [d t c z]; cbn in *. unfold setEStore; cbn. destruct st as [t'|].
    - subst t'. repeat split; cbn; auto. destruct c; auto. destruct Hd as [->|(_ & _ & Hd)]; [auto|discriminate].
    - destruct c.
      + repeat split; cbn; auto. destruct Hd as [->|(_ & _ & Hc)]; [auto|discriminate].
      + destruct Ht as [->| ->].
        * destruct Hd as [->|(_ & Hd & _)]; [|discriminate]. repeat split; cbn; auto.
        * repeat split; cbn; auto. left. destruct l; [congruence|reflexivity].
  Qed.

  (** *** against the sequence specification *)
  Lemma sop_nop_ok unique l o : sop_ok eqb unique l (N o) -> nop_ok unique o.
  Proof.
    destruct o as [o|e|e|i e]; [destruct o|..]; cbn; auto; destruct unique; congruence.
  Qed.

  Lemma nstep_seq unique l o : sop_ok eqb unique l (N o) ->
    match nstep eqb nilv unique l o, seq_step eqb unique l (N o) with
    | Ret (l', _) r, Some (l'', r') => l' = l'' /\ r = r'
    | Panic, None => True
    | _, _ => False
    end.
  Proof.
    intro Hok. destruct o as [o|e|e|i e].
    - pose proof (nstep_step eqb nilv eqb_ok unique l o) as H1.
      assert (H2 : agree (step eqb nilv unique l o) (seq_step eqb unique l (N (L o)))).
      { apply (step_agrees eqb nilv eqb_ok). intros ->. destruct o; exact Hok || exact Logic.I. }
      destruct (nstep eqb nilv unique l (L o)) as [[d ns] r|], (step eqb nilv unique l o) as [[d' cb] r'|];
        try contradiction; destruct (seq_step eqb unique l (N (L o))) as [[d'' r'']|]; cbn in *; try contradiction; auto.
      destruct H1 as [-> ->], H2 as [-> ->]. auto.
    - cbn. auto.
    - cbn [nstep seq_step]. unfold indexOf. rewrite (indexOf_from_spec eqb).
      destruct (first_pos eqb l e) as [n|] eqn:E; [|cbn; auto].
      replace (0 + Z.of_nat n =? -1) with false by lia.
      destruct (first_pos_some eqb eqb_ok _ _ _ E) as [Hn _].
      rewrite (doRemove_eq nilv l (0 + Z.of_nat n) e); [|replace (Z.to_nat (0 + Z.of_nat n)) with n by lia; exact Hn|lia].
      cbn [nlift]. cbn. split; [|reflexivity]. f_equal. lia.
    - cbn [nstep seq_step]. rewrite doSet_cases. unfold valid, st_get.
      destruct ((0 <=? i) && (i <? zlen l)) eqn:B; [|cbn; auto].
      apply andb_prop in B as [B1 B2]. apply Z.leb_le in B1. apply Z.ltb_lt in B2.
      destruct (nth_error l (Z.to_nat i)) as [x|] eqn:Hx; [|apply nth_error_None in Hx; zl]. cbn. auto.
  Qed.

  Lemma sstep_seq unique (s : slist A) l o : holds s l -> sop_ok eqb unique l o ->
    match sstep eqb nilv unique s o, seq_step eqb unique l o with
    | Ret (s', _, _) r, Some (l', r') => holds s' l' /\ r = r'
    | Panic, None => True
    | _, _ => False
    end.
  Proof.
    intros H Hok. destruct o as [o|b|st].
    - pose proof (sstep_nstep unique s l o H (sop_nop_ok unique l o Hok)) as H1.
      pose proof (nstep_seq unique l o Hok) as H2.
      destruct (sstep eqb nilv unique s (N o)) as [[[s' ns] cb] r|], (nstep eqb nilv unique l o) as [[d ns'] r'|];
        cbn in H1; try contradiction; destruct (seq_step eqb unique l (N o)) as [[d'' r'']|]; try contradiction; auto.
      destruct H1 as (_ & -> & H1), H2 as [-> ->]. auto.
    - cbn. split; [apply setCache_holds, H|reflexivity].
    - cbn. split; [apply setEStore_holds; [exact H|]|reflexivity]. destruct st; exact Hok.
  Qed.

  Lemma srun_seq unique ops : forall (s : slist A) l, holds s l -> hist_ok eqb unique l ops ->
    results (srun eqb nilv unique s ops) = fst (seq_run eqb unique l ops)
    /\ ends (srun eqb nilv unique s ops) (snd (seq_run eqb unique l ops)).
  Proof.
    induction ops as [|o ops IH]; intros s l H Hok; cbn [srun seq_run].
    - cbn. auto.
    - destruct Hok as [Ho Hok]. pose proof (sstep_seq unique s l o H Ho) as P.
      destruct (sstep eqb nilv unique s o) as [[[s' ns] cb] r|], (seq_step eqb unique l o) as [[l' r']|];
        try contradiction.
      + destruct P as [H' ->]. specialize (IH s' l' H' Hok).
        destruct (srun eqb nilv unique s' ops) as [rs fin], (seq_run eqb unique l' ops) as [rs' fin'].
        unfold results, ends in *. cbn in *. destruct IH as [-> E]. auto.
      + cbn. auto.
  Qed.

  (** notifications *)
  Lemma sstep_observes unique (s : slist A) l o s' ns cb r : holds s l -> sop_ok eqb unique l o ->
    sstep eqb nilv unique s o = Ret (s', ns, cb) r ->
    exists l', seq_step eqb unique l o = Some (l', r) /\ holds s' l' /\ observes_all ns l l'.
  Proof.
    intros H Hok E. pose proof (sstep_seq unique s l o H Hok) as P. rewrite E in P.
    destruct (seq_step eqb unique l o) as [[l' r']|] eqn:Q; [|contradiction].
    destruct P as [H' <-]. exists l'. split; [reflexivity|]. split; [exact H'|].
    destruct o as [o|b|st].
    - pose proof (sstep_nstep unique s l o H (sop_nop_ok unique l o Hok)) as H1.
      pose proof (nstep_seq unique l o Hok) as H2. rewrite E in H1. rewrite Q in H2.
      destruct (nstep eqb nilv unique l o) as [[d ns'] r'|] eqn:NE; cbn in H1; [|contradiction].
      destruct H1 as (-> & _ & _), H2 as [-> _].
      apply (nstep_observes eqb nilv eqb_ok unique l o l' ns' r').
      + destruct o as [o|e|e|i e]; [destruct o|..]; cbn in *; auto; destruct c; auto; destruct unique; congruence.
      + exact NE.
    - cbn in E, Q. injection E as _ <- _ _. injection Q as <-. constructor.
    - cbn in E, Q. injection E as _ <- _ _. injection Q as <-. constructor.
  Qed.

  Lemma srun_observes unique ops : forall (s : slist A) l, holds s l -> hist_ok eqb unique l ops ->
    forall fin, snd (seq_run eqb unique l ops) = Some fin ->
    observes_all (sent (srun eqb nilv unique s ops)) l fin.
  Proof.
    induction ops as [|o ops IH]; intros s l H Hok fin; cbn [srun seq_run].
    - cbn. intros [= <-]. constructor.
    - destruct Hok as [Ho Hok]. pose proof (sstep_seq unique s l o H Ho) as P.
      pose proof (sstep_observes unique s l o) as O.
      destruct (sstep eqb nilv unique s o) as [[[s' ns] cb] r|], (seq_step eqb unique l o) as [[l' r']|];
        try contradiction; [|discriminate].
      destruct P as [H' ->]. destruct (O s' ns cb r' H Ho eq_refl) as (l'' & [= <-] & _ & Hobs).
      specialize (IH s' l' H' Hok).
      destruct (srun eqb nilv unique s' ops) as [rs f], (seq_run eqb unique l' ops) as [rs' f'].
      unfold sent in *. cbn in *. intros Hf. apply (observes_all_app _ _ _ _ _ Hobs). apply IH, Hf.
  Qed.

  (** two lists with the same contents, cached or not *)
  Lemma srun_same unique ops (s1 s2 : slist A) l : holds s1 l -> holds s2 l -> hist_ok eqb unique l ops ->
    results (srun eqb nilv unique s1 ops) = results (srun eqb nilv unique s2 ops).
  Proof.
    intros H1 H2 Hok. rewrite (proj1 (srun_seq unique ops s1 l H1 Hok)), (proj1 (srun_seq unique ops s2 l H2 Hok)).
    reflexivity.
  Qed.
  Lemma sstep_notifs unique (s1 s2 : slist A) l o : holds s1 l -> holds s2 l -> sop_ok eqb unique l o ->
    match sstep eqb nilv unique s1 o, sstep eqb nilv unique s2 o with
    | Ret (_, ns1, _) _, Ret (_, ns2, _) _ => ns1 = ns2
    | Panic, Panic => True
    | _, _ => False
    end.
  Proof.
    intros H1 H2 Hok. destruct o as [o|b|st]; [|reflexivity|reflexivity].
    pose proof (sstep_nstep unique s1 l o H1 (sop_nop_ok unique l o Hok)) as S1.
    pose proof (sstep_nstep unique s2 l o H2 (sop_nop_ok unique l o Hok)) as S2.
    destruct (sstep eqb nilv unique s1 (N o)) as [[[? ?] ?] ?|], (sstep eqb nilv unique s2 (N o)) as [[[? ?] ?] ?|],
      (nstep eqb nilv unique l o) as [[? ?] ?|]; cbn in *; try contradiction; auto.
    destruct S1 as (-> & _), S2 as (-> & _). reflexivity.
  Qed.
  Lemma srun_same_notifs unique ops : forall (s1 s2 : slist A) l, holds s1 l -> holds s2 l -> hist_ok eqb unique l ops ->
    sent (srun eqb nilv unique s1 ops) = sent (srun eqb nilv unique s2 ops).
  Proof.
    induction ops as [|o ops IH]; intros s1 s2 l H1 H2 Hok; [reflexivity|].
    destruct Hok as [Ho Hok]. cbn [srun].
    pose proof (sstep_notifs unique s1 s2 l o H1 H2 Ho) as P.
    pose proof (sstep_seq unique s1 l o H1 Ho) as P1. pose proof (sstep_seq unique s2 l o H2 Ho) as P2.
    destruct (sstep eqb nilv unique s1 o) as [[[s1' n1] c1] r1|], (sstep eqb nilv unique s2 o) as [[[s2' n2] c2] r2|];
      try contradiction; [|reflexivity].
    destruct (seq_step eqb unique l o) as [[l' r']|]; [|contradiction].
    destruct P1 as [H1' _], P2 as [H2' _]. specialize (IH s1' s2' l' H1' H2' Hok). subst n2.
    destruct (srun eqb nilv unique s1' ops) as [rs1 f1], (srun eqb nilv unique s2' ops) as [rs2 f2].
    unfold sent in *. cbn in *. congruence.
  Qed.

  Lemma initialize_holds st : holds (initialize st) (match st with Some t => t | None => [] end : list A).
  Proof. destruct st; cbn; repeat split; cbn; auto. Qed.

  (** *** single-valued features *)
  Definition cached_ok (o : sobject A) (m : nat -> option (option A)) : Prop :=
    forall k v, props o k = Some v -> m k = Some (Some v) /\ ocache o = true.

  Lemma ostep_var o (m : nat -> option (option A)) c : ostore o = Some m -> cached_ok o m -> persistent c ->
    exists o', ostep o c = (o', snd (var_step m c)) /\ ostore o' = Some (fst (var_step m c))
               /\ cached_ok o' (fst (var_step m c)).
  Proof.
    intros Hs Hc Hp. destruct o as [p st ch]; cbn in *. subst st.
    destruct c as [f|f v|f|f|b]; cbn in Hp |- *.
    - unfold oGet. cbn. destruct (p (fid f)) as [v|] eqn:E.
      + destruct (Hc (fid f) v E) as [-> _]. eauto.
      + rewrite Hp. unfold stored. destruct ch; [|eauto].
        eexists. split; [reflexivity|]. split; [reflexivity|]. intros k w. cbn. unfold upd.
        destruct (Nat.eqb_spec k (fid f)) as [->|]; [|apply Hc].
        destruct (m (fid f)) as [[w'|]|]; intro H; inversion H; auto.
    - unfold oSet. cbn. rewrite Hp. eexists. split; [reflexivity|]. split; [reflexivity|].
      intros k w. cbn. destruct ch; unfold upd.
      + destruct (Nat.eqb_spec k (fid f)) as [->|]; [|apply Hc]. intros ->. auto.
      + intro E. destruct (Hc k w E) as [_ H]. discriminate.
    - unfold oUnset. cbn. rewrite Hp. eexists. split; [reflexivity|]. split; [reflexivity|].
      intros k w. cbn. unfold upd. destruct (Nat.eqb_spec k (fid f)) as [->|]; [discriminate|apply Hc].
    - unfold oIsSet. cbn. destruct (p (fid f)) as [v|] eqn:E; [|eauto].
      destruct (Hc (fid f) v E) as [-> _]. eauto.
    - unfold oSetCache. cbn. destruct (Bool.eqb ch b); [eauto|].
      eexists. split; [reflexivity|]. split; [reflexivity|]. intros k w. cbn. discriminate.
  Qed.

  Lemma orun_var cs : forall o (m : nat -> option (option A)), ostore o = Some m -> cached_ok o m -> Forall persistent cs ->
    orun o cs = var_run m cs.
  Proof.
    induction cs as [|c cs IH]; intros o m Hs Hc Hp; cbn [orun var_run]; [reflexivity|].
    inversion Hp as [|? ? Hp1 Hp2]; subst.
    destruct (ostep_var o m c Hs Hc Hp1) as (o' & E & Hs' & Hc'). rewrite E.
    destruct (var_step m c) as [m' r] eqn:E'. cbn in *. f_equal. apply IH; assumption.
  Qed.

  Lemma orun_fresh (m : nat -> option (option A)) c cs : Forall persistent cs ->
    orun (SO (fun _ => None) (Some m) c) cs = var_run m cs.
  Proof. intro H. apply orun_var; [reflexivity| |exact H]. intros k v. cbn. discriminate. Qed.

  (** *** callbacks *)
  Lemma perform_cb {X} (s1 s2 : slist A) l fd fs (dflt : X) ns1 ns2 : holds s1 l -> holds s2 l ->
    agree3 (fd l) (fs l) ->
    option_map snd (fs l) = option_map (fun '(_, _, cb) => map CB cb) (fd l) ->
    option_map snd (perform s1 fd fs dflt ns1) = option_map snd (perform s2 fd fs dflt ns2).
  Proof.
    intros H1 H2 Ha Hcb.
    pose proof (perform_sim s1 l fd fs dflt ns1 H1 Ha) as P1.
    pose proof (perform_sim s2 l fd fs dflt ns2 H2 Ha) as P2.
    destruct (fd l) as [[[l' x] cb]|].
    - destruct P1 as (s1' & c1 & -> & _ & E1), P2 as (s2' & c2 & -> & _ & E2). cbn in *.
      rewrite (E1 Hcb), (E2 Hcb). reflexivity.
    - rewrite P1, P2. reflexivity.
  Qed.
  Lemma calls_slift {X} (o1 o2 : option (slist A * X * list (scallback A))) k1 k2 :
    option_map snd o1 = option_map snd o2 ->
    (forall p, calls (k1 p) = Some (snd p)) -> (forall p, calls (k2 p) = Some (snd p)) ->
    calls (slift o1 k1) = calls (slift o2 k2).
  Proof.
    intros E H1 H2. destruct o1, o2; cbn in *; try discriminate; [|reflexivity].
    rewrite H1, H2. congruence.
  Qed.
  Lemma remove_cb (s1 s2 : slist A) l i : holds s1 l -> holds s2 l ->
    option_map snd (performRemove nilv s1 i) = option_map snd (performRemove nilv s2 i).
  Proof.
    intros H1 H2. unfold performRemove. apply (perform_cb s1 s2 l); auto; [apply remove_agree|].
    rewrite doRemove_cases, st_remove_eq. destruct (st_get l i); reflexivity.
  Qed.
  Lemma removePositions_cb ps : forall (s1 s2 : slist A) l, holds s1 l -> holds s2 l ->
    option_map snd (removePositions_s nilv s1 ps) = option_map snd (removePositions_s nilv s2 ps).
  Proof.
    induction ps as [|p ps IH]; intros s1 s2 l H1 H2; cbn [removePositions_s]; [reflexivity|].
    pose proof (remove_cb s1 s2 l p H1 H2) as C.
    pose proof (removePositions_sim [p] s1 l H1) as R1. pose proof (removePositions_sim [p] s2 l H2) as R2.
    cbn [removePositions removePositions_s] in R1, R2.
    destruct (performRemove nilv s1 p) as [[[s1' x1] c1]|], (performRemove nilv s2 p) as [[[s2' x2] c2]|];
      cbn in C |- *; try discriminate; [|reflexivity].
    injection C as ->. cbn [obind] in R1, R2.
    destruct (doRemove nilv l p) as [[[l' x] cb]|]; cbn [obind] in R1, R2; [|discriminate].
    destruct R1 as (s1'' & ? & E1 & H1'), R2 as (s2'' & ? & E2 & H2').
    injection E1 as -> _. injection E2 as -> _.
    specialize (IH s1'' s2'' l' H1' H2').
    destruct (removePositions_s nilv s1'' ps) as [[? ?]|], (removePositions_s nilv s2'' ps) as [[? ?]|];
      cbn in *; congruence.
  Qed.
  Lemma insertAll_cb (s : slist A) l i c : holds s l -> 0 <= i <= zlen l ->
    option_map snd (doInsertAll_s s i (fixed c)) = Some (map CB (didAddAll i c [DidChange])).
  Proof.
    intros H Hi. unfold doInsertAll_s. cbn [count fixed].
    destruct c as [|x c]; [reflexivity|].
    destruct (Z.eqb_spec (zlen (x :: c)) 0); [exfalso; zl|].
    unfold performInsertAll. cbn [now walk count fixed].
    destruct H as (Hd & Ht & Hs). destruct s as [d t ch z]; cbn [StoreListModel.data StoreListModel.store size cache] in *.
    destruct Hd as [->|(-> & -> & Hc)].
    - rewrite doInsertAll_eq by assumption. cbn [obind].
      destruct (Z.eqb_spec (zlen (x :: c)) 0); [exfalso; zl|]. cbn [negb].
      destruct Ht as [->| ->]; cbn [obind]; [reflexivity|].
      rewrite st_add_all_eq by assumption. reflexivity.
    - cbn [obind]. rewrite st_add_all_eq by assumption. reflexivity.
  Qed.
  Lemma bulk_cb unique (s1 s2 : slist A) l i c : holds s1 l -> holds s2 l -> 0 <= i <= zlen l ->
    (unique = false -> c <> Self) ->
    calls (bulk eqb nilv unique s1 i c) = calls (bulk eqb nilv unique s2 i c).
  Proof.
    intros H1 H2 Hi Hc. unfold bulk. destruct unique.
    - rewrite (elems_holds s1 l c H1), (elems_holds s2 l c H2). cbn [slift].
      rewrite (getNonDuplicates_holds s1 l _ H1), (getNonDuplicates_holds s2 l _ H2). cbn [slift].
      destruct (_ =? 0); [reflexivity|].
      apply calls_slift.
      + rewrite (insertAll_cb s1 l), (insertAll_cb s2 l) by assumption. reflexivity.
      + intros [[? ?] ?]. reflexivity.
      + intros [[? ?] ?]. reflexivity.
    - destruct c as [xs|]; [|exfalso; now apply Hc]. cbn [source_of].
      apply calls_slift.
      + rewrite (insertAll_cb s1 l), (insertAll_cb s2 l) by assumption. reflexivity.
      + intros [[? ?] ?]. reflexivity.
      + intros [[? ?] ?]. reflexivity.
  Qed.

  Lemma sstep_callbacks unique (s1 s2 : slist A) l o : holds s1 l -> holds s2 l -> sop_ok eqb unique l o ->
    same_callbacks o ->
    calls (sstep eqb nilv unique s1 o) = calls (sstep eqb nilv unique s2 o).
  Proof.
    intros H1 H2 Hok Hs. destruct o as [o|b|st]; [|reflexivity|contradiction].
    pose proof (size_holds s1 l H1) as Z1. pose proof (size_holds s2 l H2) as Z2.
    pose proof (zlen_nonneg l) as Hpos.
    assert (Hadd : forall e k1 k2,
      (forall p, calls (k1 p) = Some (snd p)) -> (forall p, calls (k2 p) = Some (snd p)) ->
      calls (slift (performAdd s1 e) k1) = calls (slift (performAdd s2 e) k2)).
    { intros e k1 k2 K1 K2. apply calls_slift; auto. unfold performAdd. rewrite Z1, Z2.
      apply (perform_cb s1 s2 l); auto.
      - pose proof (add_agree s1 l e H1) as P. rewrite Z1 in P. exact P.
      - rewrite st_add_eq by lia. reflexivity. }
    assert (Hrem : forall i k1 k2,
      (forall p, calls (k1 p) = Some (snd p)) -> (forall p, calls (k2 p) = Some (snd p)) ->
      calls (slift (performRemove nilv s1 i) k1) = calls (slift (performRemove nilv s2 i) k2)).
    { intros i k1 k2 K1 K2. apply calls_slift; auto. apply (remove_cb s1 s2 l); auto. }
    assert (Hset : forall i e k1 k2,
      (forall p, calls (k1 p) = Some (snd p)) -> (forall p, calls (k2 p) = Some (snd p)) ->
      calls (slift (performSet nilv s1 i e) k1) = calls (slift (performSet nilv s2 i e) k2)).
    { intros i e k1 k2 K1 K2. apply calls_slift; auto. unfold performSet.
      apply (perform_cb s1 s2 l); auto; [apply set_agree|].
      rewrite doSet_cases, st_set_eq. destruct (st_get l i); reflexivity. }
    destruct o as [o|e|e|i e]; [destruct o|..]; cbn [sstep]; try contradiction;
      rewrite ?(contains_holds s1 l _ H1), ?(indexOf_holds s1 l _ H1), ?Z1,
              ?(contains_holds s2 l _ H2), ?(indexOf_holds s2 l _ H2), ?Z2;
      try reflexivity.
    - destruct (unique && contains eqb l e); [reflexivity|].
      apply Hadd; intros [[? ?] ?]; reflexivity.
    - apply (bulk_cb unique s1 s2 l); auto; [lia|]. cbn in Hok. destruct unique; congruence.
    - destruct ((i <? 0) || (i >? zlen l)) eqn:B; [reflexivity|].
      destruct (unique && contains eqb l e); [reflexivity|].
      assert (Hi : 0 <= i <= zlen l).
      { apply Bool.orb_false_elim in B as [B1 B2]. apply Z.ltb_ge in B1. rewrite Z.gtb_ltb in B2. apply Z.ltb_ge in B2. lia. }
      apply calls_slift; [|intros [[? ?] ?]; reflexivity|intros [[? ?] ?]; reflexivity].
      unfold performInsert. apply (perform_cb s1 s2 l); auto; [apply insert_agree, Hi|].
      rewrite doInsert_eq, st_add_eq by lia. reflexivity.
    - destruct ((i <? 0) || (i >? zlen l)) eqn:B; [reflexivity|].
      apply (bulk_cb unique s1 s2 l); auto.
      + apply Bool.orb_false_elim in B as [B1 B2]. apply Z.ltb_ge in B1. rewrite Z.gtb_ltb in B2. apply Z.ltb_ge in B2. lia.
      + cbn in Hok. destruct unique; congruence.
    - destruct (_ || _); [reflexivity|]. apply Hrem; intros [[? ?] ?]; reflexivity.
    - destruct (_ =? -1); [reflexivity|]. apply Hrem; intros [[? ?] ?]; reflexivity.
    - rewrite (elems_holds s1 l c H1), (elems_holds s2 l c H2). cbn [slift].
      assert (Hits : exists its, (match elems l c with [] => Some [] | _ => items nilv s1 end) = Some its
                /\ (match elems l c with [] => Some [] | _ => items nilv s2 end) = Some its).
      { destruct (elems l c) as [|y ys]; [exists []; auto|].
        exists l. split; apply items_holds; assumption. }
      destruct Hits as (its & -> & ->). cbn [slift].
      pose proof (removePositions_cb (rev (map fst (scanRemoved eqb 0 its (elems l c)))) s1 s2 l H1 H2) as P.
      destruct (removePositions_s nilv s1 _) as [[s1' c1]|], (removePositions_s nilv s2 _) as [[s2' c2]|];
        cbn in P |- *; try discriminate; [|reflexivity].
      destruct (scanRemoved eqb 0 its (elems l c)) as [|[? ?] ?]; cbn; congruence.
    - destruct (_ || _); [reflexivity|].
      rewrite (get_holds s1 l _ H1), (get_holds s2 l _ H2). destruct (zget l i); reflexivity.
    - destruct (_ || _); [reflexivity|]. destruct (unique && _); [reflexivity|].
      apply Hset; intros [[? ?] ?]; reflexivity.
    - apply calls_slift; [|intros [[? ?] ?]; reflexivity|intros [[? ?] ?]; reflexivity].
      unfold performClear. apply (perform_cb s1 s2 l); auto. apply clear_agree.
    - apply Hadd; intros [[? ?] ?]; reflexivity.
    - destruct (_ =? -1); [reflexivity|]. apply Hrem; intros [[? ?] ?]; reflexivity.
    - apply Hset; intros [[? ?] ?]; reflexivity.
  Qed.

  (** *** proxies *)
  Section Proxies.
    Context (res : A -> A) (res_idem : forall x, res (res x) = res x).

    Definition pholds (s : slist A) (l : list A) : Prop :=
      exists c, (data s = Some c \/ (data s = None /\ store s = Some c /\ cache s = false))
        /\ map res c = l
        /\ (store s = None \/ exists t, store s = Some t /\ map res t = l)
        /\ size s = zlen l.

    Lemma holds_pholds s c : holds s c -> pholds s (map res c).
    Proof.
      intros (Hd & Ht & Hs). exists c. repeat split; auto.
      - destruct Ht as [->| ->]; eauto.
      - rewrite Hs. zl.
    Qed.

    Lemma pScan_spec d e : res e = e -> forall i,
      snd (pScan eqb res i d e) = indexOf_from eqb i (map res d) e
      /\ map res (fst (pScan eqb res i d e)) = map res d.
    Proof.
      intros He. induction d as [|v d IH]; intro i; cbn; [auto|].
      destruct (eqb_ok v e) as [->|Hne].
      - rewrite He. destruct (eqb_ok e e); [|congruence]. cbn. rewrite He. auto.
      - destruct (eqb_ok (res v) e) as [E|Hne']; cbn; [rewrite res_idem; auto|].
        specialize (IH (i + 1)). destruct (pScan eqb res (i + 1) d e) as [d'' k]. cbn in *.
        destruct IH as [-> ->]. rewrite res_idem. auto.
    Qed.

    Lemma pFind_spec t e : forall t1 t2, t = t1 ++ t2 ->
      pFind eqb res (length t2) (zlen t1) t e = Some (indexOf_from eqb (zlen t1) (map res t2) e).
    Proof.
      intros t1 t2; revert t1; induction t2 as [|x t2 IH]; intros t1 E; cbn [length pFind map indexOf_from]; [reflexivity|].
      rewrite st_get_zget, E, zget_app by reflexivity. cbn [obind].
      destruct (eqb_ok e (res x)) as [->|Hne].
      - destruct (eqb_ok (res x) (res x)); [reflexivity|congruence].
      - destruct (eqb_ok (res x) e); [congruence|].
        replace (zlen t1 + 1) with (zlen (t1 ++ [x])) by zl. rewrite <- E. apply IH. rewrite E, <- app_assoc. reflexivity.
    Qed.

    Lemma first_pos_unique l (x : A) n : NoDup l -> nth_error l n = Some x -> first_pos eqb l x = Some n.
    Proof.
      intros Hd H. destruct (first_pos eqb l x) as [m|] eqn:E.
      - destruct (first_pos_some eqb eqb_ok _ _ _ E) as [Hm _].
        f_equal. apply (proj1 (NoDup_nth_error l) Hd); [apply nth_error_Some; congruence|congruence].
      - apply (first_pos_none eqb eqb_ok) in E. apply nth_error_In in H. contradiction.
    Qed.

    Lemma pos_res_member l (x : A) : negb (pos_res (first_pos eqb l x) =? -1) = member eqb x l.
    Proof.
      rewrite <- (contains_member eqb eqb_ok). unfold contains, ListModel.contains. rewrite (indexOf_spec eqb). reflexivity.
    Qed.

    Lemma qstep_spec s l q : pholds s l -> NoDup l -> resolved_query res q ->
      match qstep eqb nilv res s q, query_spec eqb l q with
      | Some (s', r), Some r' => r = r' /\ pholds s' l
      | None, None => True
      | _, _ => False
      end.
    Proof.
      intros (c & Hd & Hc & Ht & Hs) Hnd Hq. destruct s as [d t ch z]; cbn [StoreListModel.data StoreListModel.store size cache] in *.
      assert (Hzc : zlen c = zlen l) by (rewrite <- Hc; zl).
      assert (Hsame : pholds (SL d t ch z) l) by (exists c; auto).
      destruct q as [i|e|e| | |b]; cbn [qstep query_spec].
      - (* Get *)
        unfold pGet. cbn [size]. unfold valid. subst z.
        destruct (Z.leb_spec 0 i), (Z.ltb_spec i (zlen l)), (Z.ltb_spec i 0); cbn [orb andb obind]; try lia;
          rewrite Z.geb_leb; destruct (Z.leb_spec (zlen l) i); try lia; cbn [obind]; try exact Logic.I.
        destruct (split_elem c i) as (c1 & x & c2 & -> & Hi); [lia|].
        assert (Hg : get nilv (SL d t ch (zlen l)) i = Some x).
        { unfold get. cbn. destruct Hd as [->|(-> & -> & _)]; [|rewrite st_get_zget]; apply zget_app; lia. }
        rewrite Hg. cbn [obind]. unfold resolveAt. cbn [StoreListModel.data StoreListModel.store size cache].
        assert (Hn : nth_error l (Z.to_nat i) = Some (res x)).
        { rewrite <- Hc, map_app. cbn [map]. apply nth_error_mid. rewrite <- Hi. zl. }
        rewrite Hn. cbn [option_map].
        destruct (eqb_ok (res x) x) as [Hr|Hr]; [cbn [obind]; auto|].
        destruct Hd as [->|(-> & -> & Hch)]; [|cbn [obind]; auto].
        rewrite zset_app by lia. cbn [obind]. split; [reflexivity|].
        exists (c1 ++ res x :: c2). cbn. repeat split; auto.
        rewrite <- Hc, !map_app. cbn. rewrite res_idem. reflexivity.
      - (* IndexOf *)
        cbn in Hq. unfold pIndexOf. cbn [StoreListModel.data StoreListModel.store size cache].
        destruct Hd as [->|(-> & -> & Hch)].
        + destruct (pScan_spec c e Hq 0) as [E1 E2]. destruct (pScan eqb res 0 c e) as [d' k]. cbn in E1, E2 |- *.
          subst k. split.
          * rewrite Hc. f_equal. apply (indexOf_spec eqb).
          * exists d'. cbn. repeat split; auto. congruence.
        + unfold st_indexOf. rewrite (indexOf_spec eqb).
          destruct (first_pos eqb c e) as [n|] eqn:E; cbn [pos_res].
          * destruct (first_pos_some eqb eqb_ok _ _ _ E) as [Hn _].
            rewrite Z.geb_leb. destruct (Z.leb_spec 0 (Z.of_nat n)); [|lia]. cbn [obind]. split; [|auto].
            rewrite (first_pos_unique l e n Hnd); [reflexivity|].
            rewrite <- Hc. rewrite <- Hq. apply map_nth_error, Hn.
          * change (-1 >=? 0) with false. cbv iota.
            replace (Z.to_nat z) with (length c) by zl.
            pose proof (pFind_spec c e [] c eq_refl) as F. change (zlen (@nil A)) with 0 in F. rewrite F. cbn [obind].
            split; [|auto]. rewrite Hc. f_equal. apply (indexOf_spec eqb).
      - (* Contains *)
        cbn in Hq. unfold pContains, pIndexOf. cbn [StoreListModel.data StoreListModel.store size cache].
        destruct Hd as [->|(-> & -> & Hch)].
        + destruct (pScan_spec c e Hq 0) as [E1 E2]. destruct (pScan eqb res 0 c e) as [d' k]. cbn in E1, E2 |- *.
          subst k. split.
          * rewrite Hc. f_equal. change (indexOf_from eqb 0 l e) with (indexOf eqb l e). rewrite (indexOf_spec eqb). apply pos_res_member.
          * exists d'. cbn. repeat split; auto. congruence.
        + destruct (st_contains eqb c e) eqn:E.
          * split; [|auto]. f_equal. symmetry. apply (member_in eqb eqb_ok).
            unfold st_contains in E. apply existsb_exists in E as (x & Hx & Ex).
            destruct (eqb_ok x e) as [->|]; [|discriminate].
            rewrite <- Hc, <- Hq. apply in_map, Hx.
          * replace (Z.to_nat z) with (length c) by zl.
            pose proof (pFind_spec c e [] c eq_refl) as F. change (zlen (@nil A)) with 0 in F. rewrite F. cbn [obind].
            split; [|auto]. rewrite Hc. f_equal. change (indexOf_from eqb 0 l e) with (indexOf eqb l e). rewrite (indexOf_spec eqb). apply pos_res_member.
      - (* ToArray *)
        unfold pToArray. cbn [StoreListModel.data StoreListModel.store size cache].
        destruct Hd as [->|(-> & -> & Hch)].
        + split; [congruence|]. exists (map res c). cbn. repeat split; auto.
          rewrite map_map. rewrite <- Hc. apply map_ext. exact res_idem.
        + split; [|auto]. f_equal. destruct c; cbn [st_toArray]; exact Hc.
      - cbn. subst z. auto.
      - split; [reflexivity|]. unfold setCache. cbn [StoreListModel.data StoreListModel.store size cache].
        destruct (Bool.eqb ch b); [auto|]. destruct b.
        + destruct Ht as [->|(t' & -> & Ht')].
          * destruct Hd as [->|(_ & Hd & _)]; [|discriminate]. exists c. cbn. auto.
          * exists t'. cbn. repeat split; eauto. left. destruct t'; reflexivity.
        + destruct Ht as [->|(t' & -> & Ht')].
          * destruct Hd as [->|(_ & Hd & _)]; [|discriminate]. exists c. cbn. auto.
          * exists t'. cbn. repeat split; eauto.
    Qed.

    Lemma qrun_spec qs : forall s l, pholds s l -> NoDup l -> Forall (resolved_query res) qs ->
      qrun eqb nilv res s qs = queries_spec eqb l qs.
    Proof.
      induction qs as [|q qs IH]; intros s l H Hnd HF; cbn [qrun queries_spec]; [reflexivity|].
      inversion HF as [|? ? Hq HF']; subst.
      pose proof (qstep_spec s l q H Hnd Hq) as P.
      destruct (qstep eqb nilv res s q) as [[s' r]|], (query_spec eqb l q) as [r'|]; try contradiction; [|reflexivity].
      destruct P as [-> H']. cbn [obind]. rewrite (IH s' l H' Hnd HF'). reflexivity.
    Qed.
  End Proxies.
End StoreListProofs.
