(** Goroutines that encode objects while other operations register and unregister objects. *)
From Verif Require Import Base EncodeModel EncodeSpec EncodeProofs EncodeClearModel EncodeClearProofs ClassDataSpec.

(** *** C173: encoding goes on while objects are registered and unregistered

    provided that no object contains itself: at any time some goroutine can go on until all calls have returned, no lock
    is held then, and the goroutines take a bounded number of steps, however the ids change *)
Theorem C173_calls_return_while_ids_change (kids : nat -> list nat) (init : nat -> bool) (work : list (list nat)) : acyclic kids ->
  (forall n s, erun kids (start init work) n s ->
     (~ finished s -> exists s', step kids s s') /\ (finished s -> forall o, owner (fst s) o = None))
  /\ exists B, forall n s, erun kids (start init work) n s -> (n <= B)%nat.
Proof.
  intros [rank Rk]. split.
  - intros n s R. pose proof (EI_run _ _ _ _ _ R) as G. split; [exact (eprogress kids rank Rk s G)|exact (efinished_free kids s G)].
  - eexists. intros n s R. pose proof (erun_cost kids rank Rk _ _ _ R) as L. eapply Nat.le_trans; [|exact L]. lia.
Qed.

Example C173_case : acyclic (fun o => match o with 2 => [0; 1] | 1 => [0] | _ => [] end%nat).
Proof. exists (fun o => o). intros [|[|[|o]]] k; cbn; intuition lia. Qed.

(** without the proviso: two objects that contain each other are unregistered while they are encoded *)
Definition cl_kids (o : nat) : list nat := match o with O => [1%nat] | _ => [0%nat] end.
Example C173_cycle : exists n s, erun cl_kids (start (fun _ => false) [[0%nat]; [1%nat]]) n s /\ ~ finished s /\ ~ exists s', step cl_kids s s'.
Proof.
  do 2 eexists. split.
  - assert (App : forall s n s' m s'', erun cl_kids s n s' -> erun cl_kids s' m s'' -> erun cl_kids s (m + n) s'').
    { intros s n s' m s'' A B. revert A. induction B as [|? ? ? ? B IH St|? ? ? ? B IH St]; intro A; [exact A| |]; cbn.
      - eapply erun_step; [apply IH, A|exact St].
      - eapply erun_ids; [apply IH, A|exact St]. }
    assert (One : forall s s', step cl_kids s s' -> erun cl_kids s 1 s') by (intros; eapply erun_step; [constructor|assumption]).
    assert (Chg : forall s s', ids_change s s' -> erun cl_kids s 0 s') by (intros; eapply erun_ids; [constructor|assumption]).
    Local Ltac go App One g c := eapply App; [apply One; eapply (st_thread _ g); [reflexivity|apply c; try reflexivity]|cbn].
    go App One 0%nat ts_start. go App One 0%nat ts_unknown. go App One 0%nat ts_lock. go App One 0%nat ts_class. go App One 0%nat ts_insert.
    go App One 1%nat ts_start. go App One 1%nat ts_unknown. go App One 1%nat ts_lock. go App One 1%nat ts_class. go App One 1%nat ts_insert.
    eapply App; [apply Chg; apply (ic_clear 0%nat)|cbn]. eapply App; [apply Chg; apply (ic_clear 1%nat)|cbn].
    go App One 0%nat ts_child. go App One 0%nat ts_unknown. go App One 1%nat ts_child. go App One 1%nat ts_unknown. apply erun_nil.
  - split.
    + intro F. destruct (F _ (or_introl eq_refl)) as [E _]. discriminate.
    + intros [s' M]. inversion M as [g sh ts t sh' t' Et Ts]; subst. destruct g as [|[|[|g]]]; try discriminate; injection Et as <-; inversion Ts; subst; discriminate.
Qed.

Print Assumptions C173_calls_return_while_ids_change.
