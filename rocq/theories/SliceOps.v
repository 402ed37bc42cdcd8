From Verif Require Import Base ListModel ListProofs SliceModel SliceSpec SliceProofs.

Section Ops.
  Context {A : Type}.
  Notation heap := (heap A).
  Notation nothing := (fun _ _ : nat => False).

  Lemma rlen H (s : slice) : valid H s -> zlen (@read A H s) = Z.of_nat (len s).
  Proof. intro V. unfold zlen. now rewrite read_length. Qed.
  Lemma zget_in (l : list A) i x : zget l i = Some x -> 0 <= i < zlen l.
  Proof.
    unfold zget, zlen. destruct (Z.ltb_spec i 0); [discriminate|]. intro E.
    assert (nth_error l (Z.to_nat i) <> None) by congruence. apply nth_error_Some in H0. lia.
  Qed.
  Lemma moved_weak (X Y : nat -> nat -> Prop) H s H' s' (l : list A) : (forall a i, X a i -> Y a i) -> moved X H s H' s' l -> moved Y H s H' s' l.
  Proof. intros HX [R V F P]. constructor; auto. eapply frame_mono; [|exact F]. intros a i [?|?]; auto. Qed.
  Lemma moved_refl X H s : valid H s -> moved X H s H s (@read A H s).
  Proof. intro V. constructor; auto; [apply frame_refl|left; repeat split]. Qed.
  Lemma moved_trans X H s H1 s1 l1 H2 s2 (l2 : list A) : moved X H s H1 s1 l1 -> moved nothing H1 s1 H2 s2 l2 -> moved X H s H2 s2 l2.
  Proof.
    intros [R V F P] [R2 V2 F2 P2]. constructor; auto.
    - eapply (frame_fresh _ _ _ _ _ F F2). intros a i [Hi|[]].
      destruct P as [P|P]; [left; left; exact (same_within _ _ _ _ P Hi)|]. right. destruct Hi as [-> _]. assumption.
    - destruct P2 as [P2|P2]; [|right; pose proof (fr_next _ _ _ F); lia].
      destruct P as [P|P]; [left; exact (same_trans _ _ _ P P2)|right]. destruct P2 as (E & _). lia.
  Qed.
  Lemma moved_disjoint X H s H' s' (l : list A) c : moved X H s H' s' l -> valid H c -> disjoint s c -> disjoint s' c.
  Proof.
    intros [_ _ _ P] [Vc _ _] D. destruct P as [(E1 & E2 & E3)|P]; unfold disjoint in *; [rewrite <- E1, <- E2, <- E3; exact D|lia].
  Qed.
  Lemma moved_other X H s H' s' (l : list A) c : moved X H s H' s' l -> valid H c -> disjoint s c ->
    (forall i, (i < len c)%nat -> ~ X (arr c) (off c + i)%nat) -> read H' c = read H c.
  Proof.
    intros [_ _ F _] [Vc Vl _] D HX. eapply read_frame; [exact F|assumption|]. intros i Hi [[E Hr]|Hx]; [|exact (HX i Hi Hx)].
    unfold disjoint in D. lia.
  Qed.

  Context (nilv : A) (grow : nat -> nat -> nat).
  Notation append := (append nilv grow). Notation alloc := (alloc nilv).
  Lemma doAddAll_ok (H : heap) s c : valid H s -> exists H' s', doAddAllH nilv grow H s c = Some (H', s') /\ moved nothing H s H' s' (read H s ++ read H c).
  Proof.
    intro V. unfold doAddAllH. pose proof (moved_append nilv grow nothing H s (read H c) V) as Ha. destruct (append H s (read H c)) as [H' s']. eauto.
  Qed.
  Lemma doInsertAll_ok (H : heap) s i c : valid H s -> valid H c -> (c = s \/ disjoint s c) -> 0 <= i <= zlen (read H s) ->
    exists H' s' l b cb, doInsertAllH nilv grow H s i c = Some (H', s') /\ doInsertAll (read H s) i (read H c) = Some (l, b, cb)
      /\ moved (spare c) H s H' s' l.
  Proof.
    intros V Vc Hc Hi. rewrite rlen in Hi by assumption. unfold doInsertAllH, doInsertAll.
    destruct (pre_ok H s i V Hi) as (pre & -> & -> & Vp & Sp & Lp). cbn [obind].
    pose proof (from_ok H s i V) as Hf. destruct (from s i) as [post|].
    2: { exfalso. unfold zslice, zlen in Hf. rewrite (read_length H s V) in Hf.
         repeat match type of Hf with context [?x <=? ?y] => destruct (Z.leb_spec x y) end; cbn in Hf; try lia; discriminate. }
    destruct Hf as (-> & Vq & _). cbn [obind].
    pose proof (append_ok nilv grow H c (read H post) Vc) as H1. destruct (append H c (read H post)) as [H1' t].
    destruct H1 as (Rt & Vt & Ft & Pt & _).
    assert (Rp : read H1' pre = read H pre).
    { eapply read_frame; [exact Ft|apply Vp|]. intros k Hk [E Hr]. destruct Sp as (E1 & E2 & E3). pose proof (v_len _ _ V). pose proof (v_len _ _ Vc).
      destruct Hc as [->|D]; [lia|]. unfold disjoint in D. lia. }
    pose proof (valid_frame _ _ _ _ Ft Vp) as Vp1.
    pose proof (moved_append nilv grow nothing H1' pre (read H1' t) Vp1) as H2. destruct (append H1' pre (read H1' t)) as [H2' s2].
    eexists _, _, _, _, _. split; [reflexivity|]. split; [reflexivity|]. rewrite Rp, Rt in H2. destruct H2 as [R2 V2 F2 P2]. constructor; auto.
    - eapply frame_trans.
      + eapply frame_mono; [|exact Ft]. auto.
      + eapply frame_mono; [|exact F2]. intros a k [Hk|[]]. left. exact (same_within _ _ _ _ Sp Hk).
    - destruct P2 as [P2|P2]; [left; exact (same_trans _ _ _ Sp P2)|right]. pose proof (fr_next _ _ _ Ft). lia.
  Qed.

  Lemma doMove_ok (H : heap) s i j : valid H s ->
    match doMoveH H s i j with
    | Some (H', s', x) => exists l cb, doMove (read H s) i j = Some (l, x, cb) /\ moved nothing H s H' s' l
    | None => doMove (read H s) i j = None
    end.
  Proof.
    intros V. unfold doMoveH, doMove. destruct (zget (read H s) i) as [x|] eqn:Ei; cbn [obind]; [|reflexivity].
    pose proof (zget_in _ _ _ Ei) as Hi. rewrite rlen in Hi by assumption.
    destruct (i =? j) eqn:Eij; [eexists _, _; split; [reflexivity|now apply moved_refl]|].
    assert (Hstore : forall H1, frame H H1 (within s) ->
      match (let? H2 := store H1 s j x in Some (H2, s, x)) with
      | Some (H', s', x') => exists l cb, (let? d2 := zset (read H1 s) j x in Some (d2, x, [DidMove j x i; DidChange])) = Some (l, x', cb) /\ moved nothing H s H' s' l
      | None => (let? d2 := zset (read H1 s) j x in Some (d2, x, [DidMove j x i; @DidChange A])) = None
      end).
    { intros H1 F1. pose proof (valid_frame _ _ _ _ F1 V) as V1. pose proof (store_ok H1 s j x V1) as Hs.
      destruct (store H1 s j x) as [H2|]; [|now rewrite Hs]. destruct Hs as [-> F2]. cbn [obind].
      eexists _, _. split; [reflexivity|]. pose proof (frame_trans _ _ _ _ F1 F2) as F. constructor; [reflexivity|exact (valid_frame _ _ _ _ F V)| |left; repeat split].
      eapply frame_mono; [|exact F]. auto. }
    destruct (Z.ltb_spec j i) as [Hj|Hj].
    - pose proof (from_ok H s (j + 1) V) as Hf. destruct (from s (j + 1)) as [dst|] eqn:Ed; cbn [obind].
      2: { replace (zslice (read H s) j i) with (@None (list A)); [reflexivity|]. unfold zslice, zlen in *. rewrite (read_length H s V) in *.
           repeat match type of Hf with context [?x <=? ?y] => destruct (Z.leb_spec x y) end; cbn in Hf; try lia; try discriminate.
           repeat match goal with |- context [?x <=? ?y] => destruct (Z.leb_spec x y) end; cbn; try lia; reflexivity. }
      destruct (Z.ltb_spec j 0) as [Hn|Hn].
      { unfold reslice, zslice. destruct (Z.leb_spec 0 j); [lia|]. reflexivity. }
      destruct (mid_ok H s j i V ltac:(lia) ltac:(lia)) as (src & -> & -> & Vs & _). cbn [obind].
      destruct (copy_ok H s (j + 1) dst src V Ed Vs) as [-> Fc]. cbn [obind]. now apply Hstore.
    - pose proof (from_ok H s i V) as Hf. destruct (from s i) as [dst|] eqn:Ed; cbn [obind].
      2: { exfalso. unfold zslice, zlen in Hf. rewrite (read_length H s V) in Hf.
           repeat match type of Hf with context [?x <=? ?y] => destruct (Z.leb_spec x y) end; cbn in Hf; try lia; discriminate. }
      destruct (Z.ltb_spec j (Z.of_nat (len s))) as [Hn|Hn].
      + destruct (mid_ok H s (i + 1) (j + 1) V ltac:(lia) ltac:(lia)) as (src & -> & -> & Vs & _). cbn [obind].
        destruct (copy_ok H s i dst src V Ed Vs) as [-> Fc]. cbn [obind]. now apply Hstore.
      + (* past the end: the copy may happen, the store panics *)
        replace (zslice (read H s) (i + 1) (j + 1)) with (@None (list A)).
        2: { unfold zslice, zlen. rewrite (read_length H s V).
             repeat match goal with |- context [?x <=? ?y] => destruct (Z.leb_spec x y) end; cbn; try lia; reflexivity. }
        cbn [obind]. destruct (reslice s (i + 1) (j + 1)) as [src|]; cbn [obind]; [|reflexivity].
        unfold store. destruct (Z.ltb_spec j (Z.of_nat (len s))); [lia|]. rewrite andb_false_r. reflexivity.
  Qed.

  Lemma doRemove_ok (H : heap) s i : valid H s ->
    match doRemoveH nilv H s i with
    | Some (H', s', x) => exists l cb, doRemove nilv (read H s) i = Some (l, x, cb) /\ moved nothing H s H' s' l
    | None => doRemove nilv (read H s) i = None
    end.
  Proof.
    intros V. unfold doRemoveH, doRemove. destruct (zget (read H s) i) as [x|] eqn:Ei; cbn [obind]; [|reflexivity].
    pose proof (zget_in _ _ _ Ei) as Hi. rewrite rlen in Hi by assumption.
    assert (Hfrom : forall a, 0 <= a <= Z.of_nat (len s) -> exists t, from s a = Some t).
    { intros a Ha. pose proof (from_ok H s a V) as Hf. destruct (from s a); [eauto|]. exfalso. unfold zslice, zlen in Hf. rewrite (read_length H s V) in Hf.
      repeat match type of Hf with context [?x <=? ?y] => destruct (Z.leb_spec x y) end; cbn in Hf; try lia; discriminate. }
    destruct (Hfrom i ltac:(lia)) as [dst Ed]. destruct (Hfrom (i + 1) ltac:(lia)) as [src Es]. rewrite Ed, Es. cbn [obind].
    pose proof (from_ok H s (i + 1) V) as Hf. rewrite Es in Hf. destruct Hf as (-> & Vs & _). cbn [obind].
    destruct (copy_ok H s i dst src V Ed Vs) as [-> Fc]. cbn [obind]. pose proof (valid_frame _ _ _ _ Fc V) as V1.
    rewrite (rlen _ s V1). pose proof (store_ok (copy H dst src) s (Z.of_nat (len s) - 1) nilv V1) as Hst.
    destruct (store (copy H dst src) s (Z.of_nat (len s) - 1) nilv) as [H1|]; [|rewrite Hst; reflexivity].
    destruct Hst as [-> Fs]. cbn [obind]. pose proof (frame_trans _ _ _ _ Fc Fs) as F. pose proof (valid_frame _ _ _ _ F V) as V2.
    rewrite (rlen _ s V2). destruct (pre_ok H1 s (Z.of_nat (len s) - 1) V2 ltac:(lia)) as (s1 & -> & -> & Vp & Sp & _). cbn [obind].
    eexists _, _. split; [reflexivity|]. constructor; [reflexivity|assumption| |now left]. eapply frame_mono; [|exact F]. auto.
  Qed.
  Lemma doRemoveRange_ok (H : heap) s i j : valid H s -> 0 <= i <= j -> j <= zlen (read H s) ->
    exists H' s' l x cb, doRemoveRangeH nilv grow H s i j = Some (H', s') /\ doRemoveRange (read H s) i j = Some (l, x, cb)
      /\ moved nothing H s H' s' l.
  Proof.
    intros V Hi Hj. rewrite rlen in Hj by assumption. unfold doRemoveRangeH, doRemoveRange.
    destruct (mid_ok H s i j V Hi Hj) as (m & _ & -> & _). cbn [obind].
    destruct (pre_ok H s i V ltac:(lia)) as (pre & -> & -> & Vp & Sp & _). cbn [obind].
    pose proof (from_ok H s j V) as Hf. destruct (from s j) as [post|].
    2: { exfalso. unfold zslice, zlen in Hf. rewrite (read_length H s V) in Hf.
         repeat match type of Hf with context [?x <=? ?y] => destruct (Z.leb_spec x y) end; cbn in Hf; try lia; discriminate. }
    destruct Hf as (-> & _). cbn [obind].
    pose proof (moved_append nilv grow nothing H pre (read H post) Vp) as Ha. destruct (append H pre (read H post)) as [H' s'].
    destruct Ha as [R V' F P]. eexists _, _, _, _, _. split; [reflexivity|]. split; [reflexivity|]. constructor; auto.
    - eapply frame_mono; [|exact F]. intros a k [Hk|[]]. left. exact (same_within _ _ _ _ Sp Hk).
    - destruct P as [P|P]; [left; exact (same_trans _ _ _ Sp P)|now right].
  Qed.
  Lemma doSet_ok (H : heap) s i e : valid H s ->
    match doSetH H s i e with
    | Some (H', s', x) => exists l cb, doSet (read H s) i e = Some (l, x, cb) /\ moved nothing H s H' s' l
    | None => doSet (read H s) i e = None
    end.
  Proof.
    intros V. unfold doSetH, doSet. destruct (zget (read H s) i) as [x|] eqn:Ei; cbn [obind]; [|reflexivity].
    pose proof (store_ok H s i e V) as Hs. destruct (store H s i e) as [H1|]; [|now rewrite Hs]. destruct Hs as [-> F]. cbn [obind].
    eexists _, _. split; [reflexivity|]. constructor; [reflexivity|exact (valid_frame _ _ _ _ F V)| |left; repeat split].
    eapply frame_mono; [|exact F]. auto.
  Qed.

  (** ** the public calls *)
  Context (eqb : A -> A -> bool).
  Definition good_arg (H : heap) (s : slice) (c : argument) : Prop :=
    match c with Other c => valid H c /\ disjoint s c | Itself => True end.
  Definition coll_of (H : heap) (c : argument) : coll A := match c with Other c => Ext (read H c) | Itself => Self end.
  Lemma elems_arg H s c : elems (read H s) (coll_of H c) = read H (argOf s c).
  Proof. now destruct c. Qed.
  Definition refines (X : nat -> nat -> Prop) (H : heap) (s : slice) (a : outcome (heap * slice) (res A))
    (b : outcome (list A * list (callback A)) (res A)) : Prop :=
    match a, b with
    | Ret (H', s') r, Ret (l, _) r' => r = r' /\ moved X H s H' s' l
    | Panic, Panic => True
    | _, _ => False
    end.
  Lemma good_arg_moved H s H' s' l c : moved nothing H s H' s' l -> good_arg H s c -> good_arg H' s' c /\ coll_of H' c = coll_of H c.
  Proof.
    intros Hm Hc. destruct c as [c|]; [|split; [exact Logic.I|reflexivity]]. destruct Hc as [Vc D]. cbn. split.
    - split; [exact (valid_frame _ _ _ _ (mv_frame _ _ _ _ _ _ Hm) Vc)|eapply moved_disjoint; eassumption].
    - f_equal. eapply moved_other; try eassumption. auto.
  Qed.
  Lemma removeAll_ok c n : forall H s m cb, valid H s -> good_arg H s c ->
    refines nothing H s (removeAllLoopH eqb nilv n H s c m) (removeAllLoop eqb nilv n (read H s) (coll_of H c) cb m).
  Proof.
    induction n as [|n IH]; intros H s m cb V Hc; cbn [removeAllLoopH removeAllLoop].
    - cbn. split; [reflexivity|now apply moved_refl].
    - unfold doGet. destruct (zget (read H s) (Z.of_nat n)) as [v|]; cbn [liftH lift]; [|exact Logic.I].
      rewrite elems_arg. destruct (contains eqb (read H (argOf s c)) v).
      2: { now apply IH. }
      rewrite rlen by assumption. destruct ((Z.of_nat n <? 0) || (Z.of_nat n >=? Z.of_nat (len s))); [exact Logic.I|].
      pose proof (doRemove_ok H s (Z.of_nat n) V) as Hr. destruct (doRemoveH nilv H s (Z.of_nat n)) as [[[H' s'] x]|]; cbn [liftH].
      2: { rewrite Hr. exact Logic.I. }
      destruct Hr as (l & cb' & -> & Hm). cbn [lift]. destruct (good_arg_moved _ _ _ _ _ c Hm Hc) as [Hc' Ec].
      specialize (IH H' s' true (cb ++ cb') (mv_valid _ _ _ _ _ _ Hm) Hc'). rewrite (mv_read _ _ _ _ _ _ Hm), Ec in IH.
      unfold refines in *. destruct (removeAllLoopH eqb nilv n H' s' c true) as [[H2 s2] r|], (removeAllLoop eqb nilv n l (coll_of H c) (cb ++ cb') true) as [[l2 cb2] r2|];
        try tauto. destruct IH as [-> IH]. split; [reflexivity|]. exact (moved_trans _ _ _ _ _ _ _ _ _ Hm IH).
  Qed.

  Definition plainA (H : heap) (o : hop A argument) : op A :=
    match o with
    | HAdd e => Add e | HAddAll c => AddAll (coll_of H c) | HInsert i e => Insert i e | HInsertAll i c => InsertAll i (coll_of H c)
    | HMoveObject i e => MoveObject i e | HMove i j => Move i j | HRemoveAt i => RemoveAt i | HRemove e => Remove e
    | HRemoveRange i j => RemoveRange i j | HRemoveAll c => RemoveAll (coll_of H c) | HGet i => Get i | HSet i e => SetAt i e
    | HClear => Clear | HSize => Size | HEmpty => Empty | HContains e => Contains e | HIndexOf e => IndexOf e
    end.
  Definition args (o : hop A argument) : list argument :=
    match o with HAddAll c | HInsertAll _ c | HRemoveAll c => [c] | _ => [] end.
  (** InsertAll of a list that allows duplicates may write after the elements of its argument *)
  Definition extra (o : hop A argument) : nat -> nat -> Prop :=
    match o with HInsertAll _ (Other c) => spare c | _ => nothing end.

  Lemma argument_ok u H s c : valid H s -> good_arg H s c ->
    let '(H1, l) := if u : bool then nonDuplicates eqb nilv H s (argOf s c) else (H, argOf s c) in
    valid H1 s /\ read H1 s = read H s /\ valid H1 l /\ (l = s \/ disjoint s l)
    /\ read H1 l = (if u then getNonDuplicates eqb (read H s) (read H (argOf s c)) else read H (argOf s c))
    /\ frame H H1 nothing /\ Nat.eqb (len l) 0 = (zlen (read H1 l) =? 0)
    /\ (u = true -> (next H <= arr l)%nat) /\ (u = false -> l = argOf s c /\ H1 = H).
  Proof.
    intros V Hc. destruct u.
    - unfold nonDuplicates. cbv zeta. set (l := getNonDuplicates eqb (read H s) (read H (argOf s c))).
      pose proof (alloc_ok nilv H l (length l) (le_n _)) as Ha. destruct (alloc H l (length l)) as [H1 t].
      destruct Ha as (R & Vt & F & N & L). split; [exact (valid_frame _ _ _ _ F V)|].
      split; [eapply read_frame; [exact F|apply V|auto]|]. split; [assumption|].
      split; [right; left; pose proof (v_arr _ _ V); lia|]. split; [assumption|]. split; [assumption|].
      split; [rewrite rlen by assumption; destruct (Nat.eqb_spec (len t) 0), (Z.eqb_spec (Z.of_nat (len t)) 0); lia || reflexivity|].
      split; [intros _; assumption|discriminate].
    - split; [assumption|]. split; [reflexivity|]. split; [destruct c as [c|]; [apply Hc|assumption]|].
      split; [destruct c as [c|]; [right; apply Hc|now left]|]. split; [reflexivity|]. split; [apply frame_refl|].
      split; [|split; [discriminate|auto]]. rewrite rlen by (destruct c as [c|]; [apply Hc|assumption]).
      destruct (Nat.eqb_spec (len (argOf s c)) 0), (Z.eqb_spec (Z.of_nat (len (argOf s c))) 0); lia || reflexivity.
  Qed.
  Lemma moved_after X (Y : nat -> nat -> Prop) H H1 s H' s' (l : list A) : frame H H1 nothing -> moved X H1 s H' s' l ->
    (forall a i, X a i -> Y a i \/ within s a i \/ (next H <= a)%nat) -> moved Y H s H' s' l.
  Proof.
    intros F [R V F' P] HX. constructor; auto.
    - eapply frame_fresh; [eapply frame_mono; [|exact F]; tauto|exact F'|]. intros a i [?|Hx]; [auto|]. destruct (HX a i Hx) as [?|[?|?]]; auto.
    - destruct P as [P|P]; [now left|right]. pose proof (fr_next _ _ _ F). lia.
  Qed.

  Lemma hstep_ok u (H : heap) s o : valid H s -> (forall c, In c (args o) -> good_arg H s c) ->
    refines (extra o) H s (hstep eqb nilv grow u H s o) (step eqb nilv u (read H s) (plainA H o)).
  Proof.
    intros V Ha. destruct o as [e|c|i e|i c|i e|i j|i|e|i j|c|i|i e| | | |e|e]; cbn [hstep step plainA extra args] in *;
      rewrite ?(rlen H s V).
    - destruct (u && contains eqb (read H s) e); [cbn; split; [reflexivity|now apply moved_refl]|].
      destruct (doAdd_ok nilv grow H s e V) as (H' & s' & -> & Hm). cbn. auto.
    - rewrite elems_arg. pose proof (argument_ok u H s c V (Ha c (or_introl eq_refl))) as Hc.
      destruct (if u then nonDuplicates eqb nilv H s (argOf s c) else (H, argOf s c)) as [H1 l].
      destruct Hc as (V1 & R1 & Vl & D & Rl & F & Ez & N1 & N2). rewrite Ez, <- Rl.
      destruct (u && (zlen (read H1 l) =? 0)).
      + cbn. split; [reflexivity|]. rewrite <- R1. eapply moved_after; [exact F|now apply (moved_refl nothing)|]. tauto.
      + destruct (doAddAll_ok H1 s l V1) as (H' & s' & -> & Hm). cbn. split; [reflexivity|]. rewrite <- R1.
        eapply moved_after; [exact F|exact Hm|tauto].
    - destruct ((i <? 0) || (i >? Z.of_nat (len s))) eqn:Ei; [exact Logic.I|].
      destruct (u && contains eqb (read H s) e); [cbn; split; [reflexivity|now apply moved_refl]|].
      destruct (doInsert_ok nilv grow H s i e V) as (H' & s' & l & cb & -> & -> & Hm); [rewrite rlen by assumption; lia|]. cbn. auto.
    - destruct ((i <? 0) || (i >? Z.of_nat (len s))) eqn:Ei; [exact Logic.I|].
      rewrite elems_arg. pose proof (argument_ok u H s c V (Ha c (or_introl eq_refl))) as Hc.
      destruct (if u then nonDuplicates eqb nilv H s (argOf s c) else (H, argOf s c)) as [H1 l].
      destruct Hc as (V1 & R1 & Vl & D & Rl & F & Ez & N1 & N2). rewrite Ez, <- Rl.
      destruct (u && (zlen (read H1 l) =? 0)).
      + cbn. split; [reflexivity|]. rewrite <- R1. eapply moved_after; [exact F|now apply (moved_refl nothing)|]. tauto.
      + destruct (doInsertAll_ok H1 s i l V1 Vl D) as (H' & s' & l' & b & cb & -> & E & Hm); [rewrite rlen by assumption; lia|].
        rewrite R1 in E. rewrite E. cbn. split; [reflexivity|].
        eapply moved_after; [exact F|exact Hm|]. intros a k Hk. destruct u; [right; right; destruct Hk as [-> _]; auto|].
        destruct (N2 eq_refl) as [-> _]. destruct c as [c|]; [now left|]. right. left. now apply spare_within.
    - destruct (indexOf eqb (read H s) e =? -1); [exact Logic.I|].
      pose proof (doMove_ok H s (indexOf eqb (read H s) e) i V) as Hm. destruct (doMoveH H s (indexOf eqb (read H s) e) i) as [[[H' s'] x]|].
      + destruct Hm as (l & cb & -> & Hm). cbn. auto.
      + rewrite Hm. exact Logic.I.
    - destruct ((i <? 0) || (i >=? Z.of_nat (len s)) || (j <? 0) || (j >? Z.of_nat (len s))); [exact Logic.I|].
      pose proof (doMove_ok H s i j V) as Hm. destruct (doMoveH H s i j) as [[[H' s'] x]|].
      + destruct Hm as (l & cb & -> & Hm). cbn. auto.
      + rewrite Hm. exact Logic.I.
    - destruct ((i <? 0) || (i >=? Z.of_nat (len s))); [exact Logic.I|].
      pose proof (doRemove_ok H s i V) as Hm. destruct (doRemoveH nilv H s i) as [[[H' s'] x]|].
      + destruct Hm as (l & cb & -> & Hm). cbn. auto.
      + rewrite Hm. exact Logic.I.
    - destruct (indexOf eqb (read H s) e =? -1); [cbn; split; [reflexivity|now apply moved_refl]|].
      pose proof (doRemove_ok H s (indexOf eqb (read H s) e) V) as Hm. destruct (doRemoveH nilv H s (indexOf eqb (read H s) e)) as [[[H' s'] x]|].
      + destruct Hm as (l & cb & -> & Hm). cbn. auto.
      + rewrite Hm. exact Logic.I.
    - destruct ((i <? 0) || (i >=? Z.of_nat (len s))) eqn:E1; [exact Logic.I|].
      destruct ((j <? 0) || (j >? Z.of_nat (len s))) eqn:E2; [exact Logic.I|]. destruct (i >? j) eqn:E3; [exact Logic.I|].
      destruct (doRemoveRange_ok H s i j V) as (H' & s' & l & x & cb & -> & -> & Hm); [lia|rewrite rlen by assumption; lia|]. cbn. auto.
    - rewrite read_length by assumption. apply removeAll_ok; auto. apply Ha. now left.
    - destruct ((i <? 0) || (i >=? Z.of_nat (len s))); [exact Logic.I|]. unfold doGet.
      destruct (zget (read H s) i); cbn; [split; [reflexivity|now apply moved_refl]|exact Logic.I].
    - destruct ((i <? 0) || (i >=? Z.of_nat (len s))); [exact Logic.I|].
      destruct (u && ((indexOf eqb (read H s) e >=? 0) && negb (indexOf eqb (read H s) e =? i))); [exact Logic.I|].
      pose proof (doSet_ok H s i e V) as Hm. destruct (doSetH H s i e) as [[[H' s'] x]|].
      + destruct Hm as (l & cb & -> & Hm). cbn. auto.
      + rewrite Hm. exact Logic.I.
    - cbn. split; [reflexivity|]. pose proof (alloc_ok nilv H [] 0 (le_n _)) as Hal. cbn in Hal. destruct Hal as (R & Vt & F & N & _).
      constructor; auto; [eapply frame_mono; [|exact F]; tauto].
    - cbn. split; [reflexivity|now apply moved_refl].
    - cbn. split; [reflexivity|now apply moved_refl].
    - cbn. split; [reflexivity|now apply moved_refl].
    - cbn. split; [reflexivity|now apply moved_refl].
  Qed.

  (** calls that look, append or clear write only after the elements of the list *)
  Definition appendsA (o : hop A argument) : bool :=
    match o with
    | HAdd _ | HAddAll _ | HClear | HGet _ | HSize | HEmpty | HContains _ | HIndexOf _ => true
    | _ => false
    end.
  Definition grew (H : heap) (s s' : slice) : Prop := (same_place s s' /\ (len s <= len s')%nat) \/ (next H <= arr s')%nat.
  Lemma hstep_appends u (H : heap) s o H' s' r : valid H s -> appendsA o = true -> hstep eqb nilv grow u H s o = Ret (H', s') r ->
    frame H H' (spare s) /\ grew H s s'.
  Proof.
    assert (Hsame : frame H H (spare s) /\ grew H s s) by (split; [apply frame_refl|left; repeat split; lia]).
    intros V Ho E. destruct o as [e|c|i e|i c|i e|i j|i|e|i j|c|i|i e| | | |e|e]; try discriminate Ho; cbn [hstep] in E.
    - destruct (u && contains eqb (read H s) e); [inversion E; now subst|]. unfold doAddH in E. cbn [liftH] in E.
      pose proof (append_ok nilv grow H s [e] V) as Ha. destruct (append H s [e]) as [H1 s1]. inversion E; subst.
      destruct Ha as (_ & _ & F & P & L). split; [exact F|]. destruct P as [P|P]; [left; split; [exact P|lia]|now right].
    - set (N := if u then nonDuplicates eqb nilv H s (argOf s c) else (H, argOf s c)) in *.
      assert (HN : frame H (fst N) nothing).
      { unfold N. destruct u; [|apply frame_refl]. unfold nonDuplicates. cbv zeta.
        pose proof (alloc_ok nilv H (getNonDuplicates eqb (read H s) (read H (argOf s c))) _ (le_n _)) as Ha.
        destruct (alloc H (getNonDuplicates eqb (read H s) (read H (argOf s c))) _) as [H1 t]. apply Ha. }
      destruct N as [H1 l]. cbn [fst] in HN. destruct (u && Nat.eqb (len l) 0).
      + inversion E; subst. split; [eapply frame_mono; [|exact HN]; tauto|apply Hsame].
      + unfold doAddAllH in E. cbn [liftH] in E. pose proof (append_ok nilv grow H1 s (read H1 l) (valid_frame _ _ _ _ HN V)) as Ha.
        destruct (append H1 s (read H1 l)) as [H2 s2]. inversion E; subst. destruct Ha as (_ & _ & F & P & L).
        split; [eapply frame_trans; [eapply frame_mono; [|exact HN]; tauto|exact F]|].
        destruct P as [P|P]; [left; split; [exact P|lia]|right]. pose proof (fr_next _ _ _ HN). lia.
    - destruct ((i <? 0) || (i >=? Z.of_nat (len s))); [discriminate|]. destruct (zget (read H s) i); [|discriminate]. inversion E; now subst.
    - cbn in E. inversion E; subst. pose proof (alloc_ok nilv H [] 0 (le_n _)) as Ha. cbn in Ha. destruct Ha as (_ & _ & F & N & _).
      split; [eapply frame_mono; [|exact F]; tauto|now right].
    - inversion E; now subst.
    - inversion E; now subst.
    - inversion E; now subst.
    - inversion E; now subst.
  Qed.
End Ops.
