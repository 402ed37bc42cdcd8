(** C24-C28, C60-C65: the schedulers of the SQL store. *)
From Coq Require Import String.
From Verif Require Import Base SchedModel SqlSchedModel SqlSchedSpec SqlSchedProofs2 SqlSchedProofs3 SqlSchedProofs4 SqlSchedProofs5.
Open Scope nat_scope.

(** *** C24: operations on one feature *)

(** When the first of two operations on a feature writes, the second one does not start before the first has ended. *)
Theorem C24_write_first_partial :
  forall default tr s a b ca cb o f,
  srun default (store_init default) tr = Some s -> no_timeout tr -> a < b ->
  called s a ca -> called s b cb -> on ca o f -> on cb o f -> c_write ca = true ->
  executing s b \/ succeeded s b -> ended s a.
Proof.
  intros default tr s a b ca cb o f H NT L Ha Hb Oa Ob W.
  exact (write_first default tr s a b ca cb H NT L Ha Hb (on_on_within ca cb o f Oa Ob) W).
Qed.
Print Assumptions C24_write_first_partial.

(** Not so when the first one reads: a write only waits for the last read. *)
Definition nodefault (_ : nat) : value := VNil.
Theorem C24_reads_refuted :
  exists tr s, srun nodefault (store_init nodefault) tr = Some s /\ no_failure tr /\
  called s 0 (op_get 1 2) /\ called s 2 (op_set 1 2 (VData 5)) /\ executing s 0 /\ executing s 2.
Proof.
  exists [SCall (op_get 1 2); SCall (op_get 1 2); SCall (op_set 1 2 (VData 5)); SStart 0; SStart 1; SEffect 1; SDone 1; SStart 2].
  eexists. split; [vm_compute; reflexivity|]. repeat split.
Qed.
Print Assumptions C24_reads_refuted.

(** The first read then answers with the value written by the later Set. *)
Theorem C24_read_late_refuted :
  exists tr s, srun nodefault (store_init nodefault) tr = Some s /\ no_failure tr /\
  called s 0 (op_get 1 2) /\ called s 2 (op_set 1 2 (VData 5)) /\ In (0, VData 5) (results s).
Proof.
  exists [SCall (op_get 1 2); SCall (op_get 1 2); SCall (op_set 1 2 (VData 5)); SStart 0; SStart 1; SEffect 1; SDone 1; SStart 2; SEffect 2; SDone 2; SEffect 0].
  eexists. split; [vm_compute; reflexivity|]. repeat split. cbn; auto.
Qed.
Print Assumptions C24_read_late_refuted.

(** Nor when the context of an operation ends while it waits: it then executes at once. *)
Theorem C24_timeout_refuted :
  exists tr s, srun nodefault (store_init nodefault) tr = Some s /\
  called s 0 (op_set 1 2 (VData 5)) /\ called s 1 (op_set 1 2 (VData 6)) /\ executing s 0 /\ executing s 1.
Proof.
  exists [SCall (op_set 1 2 (VData 5)); SCall (op_set 1 2 (VData 6)); SStart 0; STimeout 1; SStart 1].
  eexists. split; [vm_compute; reflexivity|]. repeat split.
Qed.
Print Assumptions C24_timeout_refuted.

(** *** C60: without timeout and with one pending read at a time, conflicting operations on a feature execute in order *)
Theorem C60_feature_order :
  forall default tr s a b ca cb o f,
  srun default (store_init default) tr = Some s -> no_timeout tr -> one_read_at_a_time default (store_init default) tr -> a < b ->
  called s a ca -> called s b cb -> on ca o f -> on cb o f -> c_write ca = true \/ c_write cb = true ->
  executing s b \/ succeeded s b -> ended s a.
Proof.
  intros default tr s a b ca cb o f H NT OR L Ha Hb Oa Ob W.
  exact (conflicting default tr s a b ca cb H NT OR L Ha Hb (on_on_within ca cb o f Oa Ob) W).
Qed.
Print Assumptions C60_feature_order.

(** *** C25: operations on a whole object or on the whole store *)

(** They wait for the earlier writes they concern. *)
Theorem C25_earlier_partial :
  forall default tr s a b ca cb o f,
  srun default (store_init default) tr = Some s -> no_timeout tr -> a < b ->
  called s a ca -> called s b cb -> on ca o f -> covers_object cb o -> c_write ca = true ->
  executing s b \/ succeeded s b -> ended s a.
Proof.
  intros default tr s a b ca cb o f H NT L Ha Hb Oa Cb W.
  exact (write_first default tr s a b ca cb H NT L Ha Hb (on_object_within ca cb o f Oa Cb) W).
Qed.
Print Assumptions C25_earlier_partial.

(** But a later operation on a feature does not wait for the operation on its object... *)
Theorem C25_object_later_refuted :
  exists tr s, srun nodefault (store_init nodefault) tr = Some s /\ no_failure tr /\
  called s 0 (op_unregister 1 []) /\ called s 1 (op_set 1 2 (VData 5)) /\ executing s 0 /\ executing s 1.
Proof.
  exists [SCall (op_unregister 1 []); SCall (op_set 1 2 (VData 5)); SStart 0; SStart 1].
  eexists. split; [vm_compute; reflexivity|]. repeat split.
Qed.
Print Assumptions C25_object_later_refuted.

(** ... nor for the operation on the whole store. *)
Theorem C25_store_later_refuted :
  exists tr s, srun nodefault (store_init nodefault) tr = Some s /\ no_failure tr /\
  called s 0 op_add_root /\ called s 1 (op_set 1 2 (VData 5)) /\ executing s 0 /\ executing s 1.
Proof.
  exists [SCall op_add_root; SCall (op_set 1 2 (VData 5)); SStart 0; SStart 1].
  eexists. split; [vm_compute; reflexivity|]. repeat split.
Qed.
Print Assumptions C25_store_later_refuted.

(** *** C61: an operation waits for every earlier conflicting one whose target it concerns *)
Theorem C61_covering_order :
  forall default tr s a b ca cb,
  srun default (store_init default) tr = Some s -> no_timeout tr -> a < b -> called s a ca -> called s b cb -> within ca cb ->
  c_write ca = true \/ (c_write cb = true /\ one_read_at_a_time default (store_init default) tr) ->
  executing s b \/ succeeded s b -> ended s a.
Proof.
  intros default tr s a b ca cb H NT L Ha Hb W [Wr|[Wr OR]].
  - exact (write_first default tr s a b ca cb H NT L Ha Hb W Wr).
  - exact (conflicting default tr s a b ca cb H NT OR L Ha Hb W (or_intror Wr)).
Qed.
Print Assumptions C61_covering_order.

(** *** C26: failures *)

(** A failed operation with another one waiting for it: no later operation on that feature ever executes. *)
Theorem C26_cascade_refuted :
  exists tr s, srun nodefault (store_init nodefault) tr = Some s /\
  called s 0 (op_set 1 2 (VData 5)) /\ failed s 0 /\ (forall i, ~ pending_op s i) /\
  forall tr' s' b cb, no_timeout tr' -> srun nodefault s tr' = Some s' ->
    length (calls s) <= b -> called s' b cb -> on cb 1 2 -> ~ executing s' b /\ ~ succeeded s' b.
Proof.
  set (tr := [SCall (op_set 1 2 (VData 5)); SCall (op_set 1 2 (VData 6)); SStart 0; SErr 0; SDep 1]).
  destruct (srun nodefault (store_init nodefault) tr) as [s|] eqn:E; [|vm_compute in E; discriminate].
  exists tr, s. split; [exact E|].
  assert (C1 : called s 1 (op_set 1 2 (VData 6)) /\ failed s 1 /\ In 1 (look key_dec (reg (sch s)) (Some 1, Some 2))).
  { vm_compute in E. inversion E. repeat split. cbn; auto. }
  split; [vm_compute in E; inversion E; reflexivity|]. split; [vm_compute in E; inversion E; reflexivity|]. split.
  - intros i. vm_compute in E. inversion E. destruct i as [|[|[|i]]]; intros [P|P]; discriminate.
  - intros tr' s' b cb NT H L Hb Ob.
    refine (store_poisoned nodefault tr tr' s s' 1 (op_set 1 2 (VData 6)) b cb _ NT E H (proj1 C1) eq_refl (proj1 (proj2 C1)) (proj2 (proj2 C1)) L Hb _).
    + exact I.
    + left; exact Ob.
Qed.
Print Assumptions C26_cascade_refuted.

(** So does a panic inside the operation. *)
Theorem C26_panic_refuted :
  exists tr s, srun nodefault (store_init nodefault) tr = Some s /\
  called s 0 (op_set 1 2 (VData 5)) /\ failed s 0 /\ (forall i, ~ pending_op s i) /\
  forall tr' s' b cb, no_timeout tr' -> srun nodefault s tr' = Some s' ->
    length (calls s) <= b -> called s' b cb -> on cb 1 2 -> ~ executing s' b /\ ~ succeeded s' b.
Proof.
  set (tr := [SCall (op_set 1 2 (VData 5)); SStart 0; SPanic 0]).
  destruct (srun nodefault (store_init nodefault) tr) as [s|] eqn:E; [|vm_compute in E; discriminate].
  exists tr, s. split; [exact E|].
  assert (C1 : called s 0 (op_set 1 2 (VData 5)) /\ failed s 0 /\ In 0 (look key_dec (reg (sch s)) (Some 1, Some 2))).
  { vm_compute in E. inversion E. repeat split. cbn; auto. }
  split; [apply C1|]. split; [apply C1|]. split.
  - intros i. vm_compute in E. inversion E. destruct i as [|[|i]]; intros [P|P]; discriminate.
  - intros tr' s' b cb NT H L Hb Ob.
    refine (store_poisoned nodefault tr tr' s s' 0 (op_set 1 2 (VData 5)) b cb _ NT E H (proj1 C1) eq_refl (proj1 (proj2 C1)) (proj2 (proj2 C1)) L Hb _).
    + exact I.
    + left; exact Ob.
Qed.
Print Assumptions C26_panic_refuted.

(** One failed write statement: no statement that may change the database, on any table, is ever executed again. *)
Theorem C26_statement_refuted :
  exists tr s, brun init tr = Some s /\ script tr 0 [WriteStmt "t"%string] true /\ (forall i, ~ bexecuting s i) /\
  forall tr' s' b lb okb, brun s tr' = Some s' -> length (scripts tr) <= b -> script (tr ++ tr') b lb okb ->
    single lb -> changes lb \/ okb = false -> ~ bexecuting s' b.
Proof.
  set (tr := [BCall [WriteStmt "t"%string] true; BStart 0; BFail 0]).
  destruct (brun init tr) as [s|] eqn:E; [|vm_compute in E; discriminate].
  exists tr, s. split; [exact E|]. split; [reflexivity|]. split.
  - intros i. vm_compute in E. inversion E. destruct i as [|[|i]]; discriminate.
  - intros tr' s' b lb okb H' L Sb Nb Cb.
    refine (proj1 (base_poisoned tr tr' s s' 0 [WriteStmt "t"%string] true b lb okb ""%string E H' eq_refl eq_refl _ L Sb
      _ (write_global _ _ (single_write _ _ Nb Cb)))).
    + vm_compute in E. inversion E. reflexivity.
    + cbn; auto.
Qed.
Print Assumptions C26_statement_refuted.

(** When an operation fails only while no other one is pending, and without panic, no other one ever fails because of it. *)
Theorem C26_isolated_partial :
  forall default tr s, srun default (store_init default) tr = Some s -> isolated_failures default (store_init default) tr -> proper tr ->
  forall i, sstep default s (SDep i) = None.
Proof. intros default tr s H IS PR. exact (proj1 (isolated_progress default tr s H IS PR)). Qed.
Print Assumptions C26_isolated_partial.

(** *** C62: isolated failures *)
Theorem C62_isolated_failures :
  forall default tr s, srun default (store_init default) tr = Some s -> isolated_failures default (store_init default) tr -> proper tr ->
  (forall i, sstep default s (SDep i) = None) /\
  ((exists i, pending_op s i) -> exists i, executing s i \/ sstep default s (SStart i) <> None).
Proof. exact isolated_progress. Qed.
Print Assumptions C62_isolated_failures.

(** *** C63: the operations never block each other for ever *)
Theorem C63_no_deadlock :
  forall default tr s, no_timeout tr -> proper tr -> srun default (store_init default) tr = Some s ->
  (exists i, pending_op s i) ->
  exists i, executing s i \/ (pending_op s i /\ (sstep default s (SStart i) <> None \/ sstep default s (SDep i) <> None)).
Proof. exact store_progress. Qed.
Print Assumptions C63_no_deadlock.

(** *** C27: SQL statements *)
Theorem C27_reads_refuted :
  exists tr s, brun init tr = Some s /\
  script tr 0 [SelectStmt ["t"%string]] true /\ script tr 2 [WriteStmt "t"%string] true /\ bexecuting s 0 /\ bexecuting s 2.
Proof.
  exists [BCall [SelectStmt ["t"%string]] true; BCall [SelectStmt ["t"%string]] true; BCall [WriteStmt "t"%string] true;
          BStart 0; BStart 1; BDone 1; BStart 2].
  eexists. split; [vm_compute; reflexivity|]. repeat split.
Qed.
Print Assumptions C27_reads_refuted.

(** A statement whose tables are unknown does not wait for reads, nor reads for it. *)
Theorem C27_unknown_refuted :
  exists tr s, brun init tr = Some s /\
  script tr 0 [OtherStmt] true /\ script tr 1 [SelectStmt ["t"%string]] true /\ bexecuting s 0 /\ bexecuting s 1.
Proof.
  exists [BCall [OtherStmt] true; BCall [SelectStmt ["t"%string]] true; BStart 0; BStart 1].
  eexists. split; [vm_compute; reflexivity|]. repeat split.
Qed.
Print Assumptions C27_unknown_refuted.

(** A script that ends with a SELECT is taken for a read: two writes execute at the same time. *)
Theorem C27_script_refuted :
  exists tr s, brun init tr = Some s /\
  script tr 0 [WriteStmt "t"%string; SelectStmt ["t"%string]] true /\ script tr 1 [WriteStmt "u"%string] true /\
  script tr 2 [WriteStmt "t"%string; SelectStmt ["t"%string]] true /\ bexecuting s 0 /\ bexecuting s 1 /\ bexecuting s 2.
Proof.
  exists [BCall [WriteStmt "t"%string; SelectStmt ["t"%string]] true; BCall [WriteStmt "u"%string] true;
          BCall [WriteStmt "t"%string; SelectStmt ["t"%string]] true; BStart 0; BStart 1; BStart 2].
  eexists. split; [vm_compute; reflexivity|]. repeat split.
Qed.
Print Assumptions C27_script_refuted.

(** A script that writes a table twice waits for itself, and every later write waits for it. *)
Theorem C27_self_wait_refuted :
  forall t, exists s, brun init [BCall [WriteStmt t; WriteStmt t] true] = Some s /\
  forall tr' s', brun init (BCall [WriteStmt t; WriteStmt t] true :: tr') = Some s' ->
  ~ bexecuting s' 0 /\ ~ bended s' 0 /\
  forall b lb okb, 0 < b -> script (BCall [WriteStmt t; WriteStmt t] true :: tr') b lb okb -> single lb -> changes lb \/ okb = false ->
    ~ bexecuting s' b.
Proof. intros t. eexists. split; [reflexivity|]. exact (self_wait_blocks t). Qed.
Print Assumptions C27_self_wait_refuted.

(** What holds of single statements. *)
Theorem C27_writes_partial :
  forall tr s a b la lb oka okb, brun init tr = Some s -> a <> b -> script tr a la oka -> script tr b lb okb ->
  single la -> single lb -> changes la \/ oka = false -> changes lb \/ okb = false -> ~ (bexecuting s a /\ bexecuting s b).
Proof.
  intros tr s a b la lb oka okb H N Sa Sb Na Nb Ca Cb [Ea Eb].
  destruct (Nat.lt_ge_cases a b) as [L|L].
  - destruct (base_one_write tr s a b la lb oka okb H L Sa Sb Na Nb Ca Cb Eb) as [X|X]; unfold bexecuting in Ea; congruence.
  - assert (L' : b < a) by (apply Nat.le_lteq in L; destruct L; [assumption|congruence]).
    destruct (base_one_write tr s b a lb la okb oka H L' Sb Sa Nb Na Cb Ca Ea) as [X|X]; unfold bexecuting in Eb; congruence.
Qed.
Print Assumptions C27_writes_partial.

(** *** C64: writes in call order, reads after the earlier writes to their tables *)
Theorem C64_statements :
  forall tr s a b la lb oka okb, brun init tr = Some s -> a < b -> script tr a la oka -> script tr b lb okb -> single la -> single lb ->
  (changes la \/ oka = false) /\ (changes lb \/ okb = false) \/
  (exists t, oka = true /\ okb = true /\ writes la t /\ reads lb t) ->
  bexecuting s b -> bended s a.
Proof.
  intros tr s a b la lb oka okb H L Sa Sb Na Nb [[Ca Cb]|(t & -> & -> & W & R)].
  - exact (base_one_write tr s a b la lb oka okb H L Sa Sb Na Nb Ca Cb).
  - exact (base_read_after_write tr s a b la lb t H L Sa Sb Na Nb W R).
Qed.
Print Assumptions C64_statements.

(** *** C28: Get answers from pending writes *)
Theorem C28_add_root_refuted :
  exists tr s, srun nodefault (store_init nodefault) tr = Some s /\ no_failure tr /\
  calls s = [op_set 1 2 (VData 5); op_add_root] /\ get s 1 2 (-1)%Z = Immediately VNil /\ last_set (calls s) 1 2 VNil = VData 5.
Proof.
  exists [SCall (op_set 1 2 (VData 5)); SCall op_add_root].
  eexists. split; [vm_compute; reflexivity|]. repeat split.
Qed.
Print Assumptions C28_add_root_refuted.

(** the value of a Set on another object that refers to this one *)
Theorem C28_value_refuted :
  exists tr s, srun nodefault (store_init nodefault) tr = Some s /\ no_failure tr /\
  calls s = [op_set 1 2 (VData 5); op_set 3 4 (VObj 1)] /\ get s 1 2 (-1)%Z = Immediately (VObj 1) /\
  last_set (calls s) 1 2 VNil = VData 5.
Proof.
  exists [SCall (op_set 1 2 (VData 5)); SCall (op_set 3 4 (VObj 1))].
  eexists. split; [vm_compute; reflexivity|]. repeat split.
Qed.
Print Assumptions C28_value_refuted.

Theorem C28_set_container_refuted :
  exists tr s, srun nodefault (store_init nodefault) tr = Some s /\ no_failure tr /\
  calls s = [op_set 1 2 (VData 5); op_set_container 1 (VObj 9) (Some 2)] /\ get s 1 2 (-1)%Z = Immediately (VObj 9) /\
  last_set (calls s) 1 2 VNil = VData 5.
Proof.
  exists [SCall (op_set 1 2 (VData 5)); SCall (op_set_container 1 (VObj 9) (Some 2))].
  eexists. split; [vm_compute; reflexivity|]. repeat split.
Qed.
Print Assumptions C28_set_container_refuted.

(** Get that finds a pending write, when every write to the feature is a Set. *)
Theorem C28_pending_partial :
  forall default o f tr s v, srun default (store_init default) tr = Some s -> no_failure tr ->
  one_read_at_a_time default (store_init default) tr -> only_sets o f tr ->
  get s o f (-1)%Z = Immediately v -> v = last_set (calls s) o f (default f).
Proof. intros default o f tr s v H NF OR OS. exact (proj1 (get_last_set default o f tr s H NF OR OS) v). Qed.
Print Assumptions C28_pending_partial.

(** *** C65: Get returns the last Set, from the pending write or from the table *)
Theorem C65_get_last_set :
  forall default o f tr s, srun default (store_init default) tr = Some s -> no_failure tr ->
  one_read_at_a_time default (store_init default) tr -> only_sets o f tr ->
  (forall v, get s o f (-1)%Z = Immediately v -> v = last_set (calls s) o f (default f)) /\
  (forall i c v, In (i, v) (results s) -> called s i c -> on c o f -> v = last_set (firstn i (calls s)) o f (default f)).
Proof. exact get_last_set. Qed.
Print Assumptions C65_get_last_set.

(** *** Non-trivial cases *)
Definition sample : list sevent :=
  [SCall (op_set 1 2 (VData 5)); SCall (op_set 1 3 (VObj 4)); SCall (op_get 1 2); SStart 0; SStart 1; SEffect 0;
   SCall (op_set 1 2 (VData 6)); SDone 0; SStart 2; SEffect 2; SDone 2; SStart 3; SCall (op_get 1 3); SEffect 3].
Example sample_runs : exists s, srun nodefault (store_init nodefault) sample = Some s /\
  executing s 3 /\ ended s 2 /\ pending_op s 4 /\ In (2, VData 5) (results s) /\ get s 1 2 (-1)%Z = Immediately (VData 6) /\
  called s 2 (op_get 1 2) /\ called s 3 (op_set 1 2 (VData 6)).
Proof.
  eexists. split; [vm_compute; reflexivity|]. repeat split; try (left; reflexivity).
Qed.
Example sample_hypotheses :
  no_failure sample /\ no_timeout sample /\ proper sample /\
  one_read_at_a_time nodefault (store_init nodefault) sample /\ isolated_failures nodefault (store_init nodefault) sample.
Proof.
  split; [exact I|]. split; [exact I|]. split.
  - intros c H. repeat (destruct H as [H|H]; [try discriminate; inversion H; subst; repeat split; try constructor; try discriminate; cbn; intros; auto|]); destruct H.
  - split.
    + unfold one_read_at_a_time, sample.
      repeat (cbn [along]; split; [first [exact I | intros W i ci Hc Wc; vm_compute in W; try discriminate W;
         vm_compute in Hc; destruct i as [|[|[|[|[|i]]]]]; try discriminate Hc; inversion Hc; subst ci; try discriminate Wc; left; reflexivity
         | intros W i ci Hc Wc; vm_compute in Hc; destruct i; discriminate Hc] |
         match goal with |- context [sstep ?d ?s ?e] => let r := eval vm_compute in (sstep d s e) in change (sstep d s e) with r end; cbv iota]).
      exact I.
    + unfold isolated_failures, sample.
      repeat (cbn [along]; split; [exact I|
         match goal with |- context [sstep ?d ?s ?e] => let r := eval vm_compute in (sstep d s e) in change (sstep d s e) with r end; cbv iota]).
      exact I.
Qed.
Example sample_only_sets : only_sets 1 2 sample.
Proof.
  intros c H. repeat (destruct H as [H|H]; [try discriminate; inversion H; subst; clear H|]); try destruct H;
    (split; [reflexivity|]; intros W C; try discriminate W); try (split; [reflexivity|split; [split; reflexivity|reflexivity]]).
  exfalso. destruct C as [[_ C]|[C|[[_ C]|[[_ []]|[C _]]]]]; discriminate.
Qed.
(** an isolated failure, then a successful operation on the same feature *)
Definition failing : list sevent :=
  [SCall (op_set 1 2 (VData 5)); SStart 0; SErr 0; SCall (op_set 1 2 (VData 6)); SCall (op_unregister 1 [7; 8]); SStart 1].
Example failing_isolated : exists s, srun nodefault (store_init nodefault) failing = Some s /\ failed s 0 /\ executing s 1 /\ pending_op s 2 /\
  isolated_failures nodefault (store_init nodefault) failing /\ within (op_set 1 2 (VData 6)) (op_unregister 1 [7; 8]).
Proof.
  eexists. split; [vm_compute; reflexivity|]. split; [reflexivity|]. split; [reflexivity|]. split; [left; reflexivity|]. split.
  - unfold isolated_failures, failing.
    repeat (cbn [along]; split; [first [exact I | intros j N; destruct j as [|j]; [congruence|]; destruct j; intros [P|P]; discriminate P]|
       match goal with |- context [sstep ?d ?s ?e] => let r := eval vm_compute in (sstep d s e) in change (sstep d s e) with r end; cbv iota]).
    exact I.
  - right. right. left. split; reflexivity.
Qed.
(** statements: an insertion, a query on the same table, a parse error; a failed update *)
Definition statements : list bevent :=
  [BCall [WriteStmt "t"%string] true; BCall [SelectStmt ["u"; "t"]%string] true; BCall [] false; BStart 0; BDone 0; BStart 1; BStart 2; BFail 2].
Example statements_run : exists s, brun init statements = Some s /\ bended s 0 /\ bexecuting s 1 /\ bended s 2 /\
  writes [WriteStmt "t"%string] "t"%string /\ reads [SelectStmt ["u"; "t"]%string] "t"%string.
Proof.
  eexists. split; [vm_compute; reflexivity|]. split; [left; reflexivity|]. split; [reflexivity|]. split; [right; reflexivity|]. split; [left; reflexivity|].
  exists ["u"; "t"]%string. cbn; auto.
Qed.
Example statements_single : single [WriteStmt "t"%string] /\ single [SelectStmt ["u"; "t"]%string] /\ changes [WriteStmt "t"%string].
Proof.
  split; [unfold single; cbn; auto|].
  split; [unfold single; cbn; auto|].
  exists (WriteStmt "t"%string). split; [left; reflexivity|exact I].
Qed.
