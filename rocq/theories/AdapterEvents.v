From Coq Require Import Permutation.
From Verif Require Import Base ListModel ListSpec ListProofs NotifyModel NotifyProofs CallbackProofs
  GraphModel GraphSpec GraphProofs GraphInv GraphSteps AdapterModel AdapterErase AdapterSpec AdapterWalk AdapterDispatch AdapterSummary.

(** ** The notification of a list call *)
Lemma list_notif data p st R Ad : list_effect data p = Some (st, R, Ad) ->
  (listEvents data (L p) = [] /\ R = [] /\ Ad = []) \/
  exists nt, listEvents data (L p) = [nt] /\ rems nt = R /\ adds nt = Ad
    /\ (evt nt = SET -> exists i e y, p = SetAt i e /\ zget data i = Some y /\ R = [y] /\ y <> e) /\ evt nt <> UNSET.
Proof.
  unfold listEvents.
  destruct p; cbn [list_effect nstep andb]; cbv zeta;
    repeat match goal with |- context [if ?b then _ else _] =>
             lazymatch type of b with bool => destruct b eqn:? end end;
    cbn [obind nlift nret]; try discriminate; try (intros [= <- <- <-]; left; auto; fail).
  - intros [= <- <- <-]. right. eexists; split; [reflexivity|]. cbn. repeat split; discriminate.
  - unfold ndoInsertAll. destruct (getNonDuplicates Nat.eqb data (elems data c)) as [|x l] eqn:E; [cbn in *; lia|].
    destruct (doInsertAll data (zlen data) (x :: l)) as [[[d b] cb]|]; cbn [obind nlift nret]; [|discriminate].
    intros [= <- <- <-]. right. eexists; split; [reflexivity|]. destruct l; cbn; repeat split; discriminate.
  - destruct (doInsert 0%nat data i e) as [[d cb]|]; cbn [obind nlift nret]; [|discriminate].
    intros [= <- <- <-]. right. eexists; split; [reflexivity|]. cbn. repeat split; discriminate.
  - unfold ndoInsertAll. destruct (getNonDuplicates Nat.eqb data (elems data c)) as [|x l] eqn:E; [cbn in *; lia|].
    destruct (doInsertAll data i (x :: l)) as [[[d b] cb]|]; cbn [obind nlift nret]; [|discriminate].
    intros [= <- <- <-]. right. eexists; split; [reflexivity|]. destruct l; cbn; repeat split; discriminate.
  - destruct (doMove data (indexOf Nat.eqb data e) i) as [[[d x] cb]|]; cbn [obind nlift nret]; [|discriminate].
    intros [= <- <- <-]. right. eexists; split; [reflexivity|]. cbn. repeat split; discriminate.
  - destruct (doMove data i j) as [[[d x] cb]|]; cbn [obind nlift nret]; [|discriminate].
    intros [= <- <- <-]. right. eexists; split; [reflexivity|]. cbn. repeat split; discriminate.
  - destruct (doRemove 0%nat data i) as [[[d x] cb]|]; cbn [obind nlift nret]; [|discriminate].
    intros [= <- <- <-]. right. eexists; split; [reflexivity|]. cbn. repeat split; discriminate.
  - destruct (doRemove 0%nat data (indexOf Nat.eqb data e)) as [[[d x] cb]|]; cbn [obind nlift nret]; [|discriminate].
    intros [= <- <- <-]. right. eexists; split; [reflexivity|]. cbn. repeat split; discriminate.
  - destruct (doRemoveRange data i j) as [[[d x] cb]|]; cbn [obind nlift nret]; [|discriminate].
    intros [= <- <- <-]. destruct (zlen x >? 0) eqn:E; [|left; destruct x; [auto|zl]].
    right. eexists; split; [reflexivity|]. destruct x as [|y [|z x]]; cbn; repeat split; discriminate.
  - pose proof (removeStages_positions (rev (map fst (scanRemoved Nat.eqb 0 data (elems data c)))) data) as H.
    destruct (removeStages data _), (removePositions 0%nat data _); cbn [obind nlift nret]; try contradiction; try discriminate.
    intros [= <- <- <-]. destruct (scanRemoved Nat.eqb 0 data (elems data c)) as [|[q y] pr]; [left; auto|].
    right. eexists; split; [reflexivity|]. destruct pr; cbn; repeat split; discriminate.
  - intros [= <- <- <-]. left. destruct (doGet data i); auto.
  - destruct (doSet data i e) as [[[d x] cb]|] eqn:Ed; cbn [obind nlift nret]; [|discriminate].
    destruct (Nat.eqb_spec e x) as [->|N]; intros [= <- <- <-]; [left; auto|].
    right. eexists; split; [reflexivity|]. cbn. split; [reflexivity|]. split; [reflexivity|]. split; [|discriminate].
    intros _. exists i, e, x. split; [reflexivity|]. split; [|split; [reflexivity|congruence]].
    unfold doSet in Ed. destruct (zget data i) as [y|]; cbn [obind] in Ed; [|discriminate].
    destruct (zset data i e); cbn [obind] in Ed; [|discriminate]. congruence.
  - intros [= <- <- <-]. right. eexists; split; [reflexivity|]. destruct data as [|x [|y data]]; cbn; repeat split; discriminate.
Qed.

Lemma remove_notif data x : NoDup data -> In x data ->
  exists i, listEvents data (RemoveWithNotification x) = [Notif REMOVE (PObj x) PNil i].
Proof.
  intros Hnd Hx. unfold listEvents. cbn [nstep]. cbv zeta. rewrite (indexOf_spec Nat.eqb).
  destruct (first_pos Nat.eqb data x) as [n|] eqn:E; cbn [pos_res].
  - apply (first_pos_some Nat.eqb neqb_ok) in E as [E _].
    destruct (Z.eqb_spec (Z.of_nat n) (-1)); [lia|].
    rewrite (doRemove_eq _ _ _ x) by (rewrite ?Nat2Z.id; auto; lia). cbn. eauto.
  - apply (first_pos_none Nat.eqb neqb_ok) in E. contradiction.
Qed.
Lemma add_notif data x : exists i, listEvents data (AddWithNotification x) = [Notif ADD PNil (PObj x) i].
Proof. unfold listEvents. cbn. eauto. Qed.

(** ** No two notifications of a call are about the same feature: nothing merges *)
Lemma chainAddE_fresh chain e : (forall m, In m chain -> same_place m e = false) -> chainAddE chain e = Some (chain ++ [e]).
Proof.
  induction chain as [|m chain IH]; intro H; cbn [chainAddE]; [reflexivity|].
  rewrite (H m (or_introl eq_refl)). cbn [obind]. rewrite IH by (intros; apply H; now right). reflexivity.
Qed.
Lemma chainAll_fresh es : forall chain, ForallOrdPairs (fun m e => same_place m e = false) (chain ++ es) ->
  chainAll chain es = Some (chain ++ es).
Proof.
  induction es as [|e es IH]; intros chain H; cbn [chainAll]; [now rewrite app_nil_r|].
  rewrite chainAddE_fresh.
  - cbn [obind]. rewrite IH; rewrite <- app_assoc; [reflexivity|assumption].
  - intros m Hm. clear IH. induction chain as [|a chain IH]; [destruct Hm|]. cbn in H. inversion H as [|? ? Hf Hr]; subst.
    destruct Hm as [->|Hm]; [|auto]. rewrite Forall_forall in Hf. apply Hf, in_elt.
Qed.
