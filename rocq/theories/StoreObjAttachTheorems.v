(** C165: objects that get a store after they were filled, or move from one store to another. *)
From Verif Require Import Base ListModel ListSpec NotifyModel StoreListModel StoreListSpec StoreObjModel StoreObjSpec
  StoreObjAttachSpec StoreObjAttach StoreObjTheorems.

Theorem C165_record_across_stores :
  forall (A : Type) (eqb : A -> A -> bool) (nilv : A) (kind : nat -> fkind),
    (forall x y, reflect (x = y) (eqb x y)) ->
    forall (start : option nat) (cache : bool) (v : nat -> nat -> option A) (l : nat -> nat -> list A) (h : list (wop A)),
      all_attachable eqb nilv kind (NewObject start cache v l) (initial start v l) h ->
      let got := wrun eqb nilv kind (NewObject start cache v l) h in
      let expected := rec_run eqb kind (initial start v l) h in
      map observed (fst got) = fst expected
      /\ match snd got, snd expected with
         | Some w, Some r => persisted kind w r
         | None, None => True
         | _, _ => False
         end
      /\ steps_only_attached eqb nilv kind (NewObject start cache v l) h.
Proof.
  intros A eqb nilv kind eok start cache v l h H. cbn zeta.
  destruct (runA eqb nilv kind eok h _ _ (okA_new kind start cache v l) H) as (R & F & K). split; [exact R|]. split; [|exact K].
  destruct (snd (wrun _ _ _ _ _)), (snd (rec_run _ _ _ _)); try exact F. apply okA_persisted, F.
Qed.
Print Assumptions C165_record_across_stores.

(** an object that is filled without a store, attached to a store that has its contents, and changed again *)
Definition filled : list (wop nat) :=
  [WSet 0 (Some 6%nat); WVia 2 (L (Add 8%nat)); WSetCache true; WGet 2; WSetEStore (Some 1%nat); WVia 2 (L (Add 9%nat)); WGet 0;
   WSet 0 None; WVia 2 (L ToArray)].
Example filled_is_attachable :
  all_attachable Nat.eqb 0%nat kinds (NewObject None false some_values some_lists) (initial None some_values some_lists) filled.
Proof. cbn. repeat split; try discriminate. intros [|[|[|f]]]; reflexivity. Qed.
Example filled_store :
  option_map (fun w => (lists w 1%nat 2%nat, values w 1%nat 0%nat, lists w 0%nat 2%nat))
    (snd (runs (NewObject None false some_values some_lists) filled))
  = Some ([8; 9]%nat, None, [1; 2]%nat).
Proof. vm_compute. reflexivity. Qed.
