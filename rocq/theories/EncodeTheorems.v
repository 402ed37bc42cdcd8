(** Goroutines that encode objects with one SQL encoder. *)
From Verif Require Import Base EncodeModel EncodeSpec EncodeProofs EncodeContents.

Section EncodeTheorems.
  Context (kids : nat -> list nat) (init : nat -> bool) (work : list (list nat)).

  (** *** C168: goroutines that encode objects do not block each other for ever

      At any time some goroutine can go on until all calls have returned; no lock is held then; and the number of steps
      is bounded, whatever the schedule and the queries that fail. *)
  Theorem C168_calls_return (N : list nat) : closed kids N -> (forall o, requested work o -> In o N) ->
    (forall n s, run kids (start init work) n s ->
       (~ finished s -> exists s', step kids s s') /\ (finished s -> forall o, owner (fst s) o = None))
    /\ exists B, forall n s, run kids (start init work) n s -> (n <= B)%nat.
  Proof.
    intros Cl Rq. split.
    - intros n s R. pose proof (GI_run _ _ _ _ _ R) as G. split; [now apply (progress kids init)|]. now apply (finished_free init).
    - exists (left_ kids N (start init work)). intros n s R. destruct (run_cost kids init N work n s Cl Rq R) as [_ L]. lia.
  Qed.

  (** *** C169: each object gets one row, and exactly the new objects get one *)
  Theorem C169_one_row_each n s : run kids (start init work) n s ->
    NoDup (rows (fst s))
    /\ (forall o, In o (rows (fst s)) -> exists r, requested work r /\ new_from kids init r o)
    /\ (finished s -> no_error s -> forall o, In o (rows (fst s)) <-> exists r, requested work r /\ new_from kids init r o).
  Proof.
    intro R. split; [exact (gi_nodup _ _ (GI_run _ _ _ _ _ R))|]. split; [exact (ci_new _ _ _ _ (CI_run _ _ _ _ _ R))|].
    intros F Ne. exact (proj1 (contents _ _ _ _ _ R F Ne)).
  Qed.

  (** *** C170: a call that returns without error has written the object

      False (below): the id is registered before the features are written.  What holds: the object has an id then; an
      object that has a row but not its features at the end comes with a call that returned an error; and without
      errors, at the end all is written. *)
  Theorem C170_nil_error_partial n s : run kids (start init work) n s ->
    (forall t r, In t (snd s) -> In (r, true) (outs t) -> init r = true \/ In r (rows (fst s)))
    /\ (finished s -> forall o, In o (rows (fst s)) -> In o (full (fst s)) \/ exists t r, In t (snd s) /\ In (r, false) (outs t))
    /\ (finished s -> no_error s -> forall r o, requested work r -> new_from kids init r o -> In o (full (fst s))).
  Proof.
    intro R. pose proof (CI_run _ _ _ _ _ R) as C. split; [|split].
    - intros t r Ht Hr. apply (gi_ids _ _ (GI_run _ _ _ _ _ R)). exact (ci_outs _ _ _ _ C t r Ht Hr).
    - intros F o Ho. destruct (ci_rows _ _ _ _ C o Ho) as [A|[(t & Ht & [(x & A)|(x & A)])|(t & ks & Ht & A)]]; [auto| |right; exists t, x; auto|];
        destruct (F t Ht) as [E _]; now rewrite E in A.
    - intros F Ne r o Rq Nf. apply (contents _ _ _ _ _ R F Ne). exists r. auto.
  Qed.
End EncodeTheorems.

(** the object 0 contains 1 *)
Definition en_kids (o : nat) : list nat := match o with O => [1%nat] | _ => [] end.
Definition en_none : nat -> bool := fun _ => false.
Ltac en_step g c := eapply run_cons; [eapply (st_thread _ g); [reflexivity|apply c; reflexivity]|cbn].
Ltac en_step' g c := eapply run_cons; [eapply (st_thread _ g); [reflexivity|apply c]|cbn].

(** a query fails after the id was registered; the second attempt returns without error, and the features are never
    written.  And: a goroutine that meets the object while another one encodes it returns before it is written *)
Theorem C170_nil_error_refuted :
  (exists n s, run en_kids (start en_none [[0%nat; 0%nat]]) n s /\ finished s
     /\ (exists t, In t (snd s) /\ outs t = [(0%nat, false); (0%nat, true)]) /\ full (fst s) = [])
  /\ (exists n s, run en_kids (start en_none [[0%nat]; [0%nat]]) n s /\ no_error s
     /\ (exists t, In t (snd s) /\ outs t = [(0%nat, true)]) /\ full (fst s) = []).
Proof.
  split.
  - do 2 eexists. split.
    + en_step' 0%nat ts_start. en_step 0%nat ts_unknown. en_step 0%nat ts_lock. en_step 0%nat ts_class. en_step' 0%nat ts_insert. en_step' 0%nat ts_query_fails. en_step' 0%nat ts_fail. en_step' 0%nat ts_start. en_step 0%nat ts_known. apply run_nil.
    + split; [|split; [|reflexivity]].
      * intros t [<-|[]]. split; reflexivity.
      * eexists. split; [left; reflexivity|reflexivity].
  - do 2 eexists. split.
    + en_step' 0%nat ts_start. en_step 0%nat ts_unknown. en_step 0%nat ts_lock. en_step 0%nat ts_class. en_step' 0%nat ts_insert. en_step' 1%nat ts_start. en_step 1%nat ts_known. apply run_nil.
    + split; [|split; [|reflexivity]].
      * intros t o b [<-|[<-|[]]]; cbn; [intros []|]. intros [[= _ <-]|[]]. reflexivity.
      * eexists. split; [right; left; reflexivity|reflexivity].
Qed.

(** two goroutines, one asked for the object and one for its content *)
Example C168_case : closed en_kids [0%nat; 1%nat] /\ forall o, requested [[0%nat]; [1%nat]] o -> In o [0%nat; 1%nat].
Proof.
  split; [split|].
  - repeat constructor; cbn; intuition discriminate.
  - intros o [<-|[<-|[]]] x; cbn; intuition auto.
  - intros o (js & [<-|[<-|[]]] & [<-|[]]); cbn; auto.
Qed.
(** they end with both rows *)
Example C169_case : exists n s, run en_kids (start en_none [[0%nat]; [1%nat]]) n s /\ finished s /\ no_error s
  /\ rows (fst s) = [0%nat; 1%nat] /\ full (fst s) = [1%nat; 0%nat].
Proof.
  do 2 eexists. split.
  - en_step' 0%nat ts_start. en_step 0%nat ts_unknown. en_step 0%nat ts_lock. en_step 0%nat ts_class. en_step' 0%nat ts_insert. en_step' 1%nat ts_start. en_step 1%nat ts_unknown. en_step' 0%nat ts_child. en_step 0%nat ts_unknown. en_step 1%nat ts_lock. en_step 1%nat ts_class. en_step' 1%nat ts_insert. en_step' 1%nat ts_done. en_step 0%nat ts_lock. en_step 0%nat ts_encoded. en_step' 0%nat ts_done. apply run_nil.
  - split; [|split; [|split; reflexivity]].
    + intros t [<-|[<-|[]]]; split; reflexivity.
    + intros t o b [<-|[<-|[]]]; cbn; intros [[= _ <-]|[]]; reflexivity.
Qed.

Print Assumptions C168_calls_return.
Print Assumptions C169_one_row_each.
Print Assumptions C170_nil_error_partial.
Print Assumptions C170_nil_error_refuted.
