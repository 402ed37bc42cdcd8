(** Goroutines that ask one SQL encoder for the data of classes. *)
From Verif Require Import Base ClassDataModel ClassDataSpec ClassDataProofs.

Section ClassDataTheorems.
  Context (supers : nat -> list nat) (work : list (list nat)).

  (** *** C171: goroutines that ask for the data of classes do not block each other for ever

      provided that no class is its own super type: see [C171_cycle] *)
  Theorem C171_class_calls_return : acyclic supers ->
    (forall n s, crun supers (cstart work) n s ->
       (~ cfinished s -> exists s', cmove supers s s') /\ (cfinished s -> forall c, cowner (fst s) c = None))
    /\ exists B, forall n s, crun supers (cstart work) n s -> (n <= B)%nat.
  Proof.
    intros [rank Rk]. split.
    - intros n s R. pose proof (CGI_run _ _ _ _ R) as G. split; [exact (cprogress supers rank Rk s G)|exact (cfinished_free supers s G)].
    - eexists. intros n s R. pose proof (crun_cost supers rank Rk _ _ _ R) as L. eapply Nat.le_trans; [|exact L]. lia.
  Qed.

  (** *** C172: the data of each class are made once, after those of its super types, and a call without error has them *)
  Theorem C172_made_once n s : crun supers (cstart work) n s ->
    NoDup (created (fst s)) /\ after_supers supers (created (fst s))
    /\ forall t c, In t (snd s) -> In (c, true) (couts t) -> In c (created (fst s)) /\ incl (supers c) (created (fst s)).
  Proof.
    intro R. pose proof (CGI_run _ _ _ _ R) as G. split; [exact (cg_nodup _ _ G)|]. split; [exact (cg_after _ _ G)|].
    intros t c Ht Hc. assert (I : In c (created (fst s))) by (apply (cg_data _ _ G); exact (couts_run _ _ _ _ R t c Ht Hc)). split; [exact I|].
    apply in_split in I as (a & b & E). intros x Hx. rewrite E. apply in_or_app. left. exact (cg_after _ _ G a c b E x Hx).
  Qed.
End ClassDataTheorems.

Ltac cd_step g c := eapply crun_cons; [eapply (cm_thread _ g); [reflexivity|apply c; reflexivity]|cbn].
Ltac cd_step' g c := eapply crun_cons; [eapply (cm_thread _ g); [reflexivity|apply c]|cbn].

(** the class 2 has the super types 0 and 1, the class 1 has 0; two goroutines ask for 2 and 1 *)
Definition cd_supers (c : nat) : list nat := match c with 2 => [0; 1] | 1 => [0] | _ => [] end%nat.
Example C171_case : acyclic cd_supers.
Proof. exists (fun c => c). intros [|[|[|c]]] s; cbn; intuition lia. Qed.
Example C172_case : exists n s, crun cd_supers (cstart [[2]; [1]]%nat) n s /\ created (fst s) = [0; 1]%nat
  /\ exists t, In t (snd s) /\ In (1%nat, true) (couts t).
Proof.
  do 2 eexists. split; [|split].
  - cd_step' 0%nat cs_start. cd_step 0%nat cs_lock. cd_step 0%nat cs_new. cd_step' 1%nat cs_start. cd_step 1%nat cs_lock. cd_step 1%nat cs_new.
    cd_step' 1%nat cs_super. cd_step 1%nat cs_lock. cd_step' 0%nat cs_super. cd_step 1%nat cs_new. cd_step' 1%nat cs_create. cd_step' 1%nat cs_create.
    apply crun_nil.
  - reflexivity.
  - eexists. split; [right; left; reflexivity|now left].
Qed.

(** a class that is its own super type: the goroutine waits for the lock it holds *)
Example C171_cycle : exists n s, crun (fun _ => [0%nat]) (cstart [[0%nat]]) n s /\ ~ cfinished s /\ ~ exists s', cmove (fun _ => [0%nat]) s s'.
Proof.
  do 2 eexists. split; [cd_step' 0%nat cs_start; cd_step 0%nat cs_lock; cd_step 0%nat cs_new; cd_step' 0%nat cs_super; apply crun_nil|]. split.
  - intro F. destruct (F _ (or_introl eq_refl)) as [E _]. discriminate.
  - intros [s' M]. inversion M as [g sh ts t sh' t' Et Ts]; subst. destruct g as [|[|g]]; try discriminate. injection Et as <-. inversion Ts; subst.
    discriminate.
Qed.

Print Assumptions C171_class_calls_return.
Print Assumptions C172_made_once.
