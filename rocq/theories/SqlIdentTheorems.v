(** The identities of the objects of a SQL store: theorems. *)
From Verif Require Import Base SqlIdentModel SqlIdentSpec SqlIdentProofs.
Local Open Scope list_scope.
Local Open Scope Z_scope.

(** the classes and features of the examples: class 1 has SQLObjects, feature 0 contains *)
Definition ex_sql : nat -> bool := Nat.eqb 1.
Definition ex_contains : nat -> bool := Nat.eqb 0.
Definition ex_new : store := opened (fun _ => None) 1 (fun _ => None) [].
Lemma ex_new_good : good_db (fun _ => None) 1 (fun _ => None) [].
Proof. constructor; try discriminate; try lia. intros i []. Qed.

(** the state after some calls *)
Fixpoint after (s : store) (h : list call) : store :=
  match h with [] => s | k :: h' => after (fst (perform ex_sql ex_contains s k)) h' end.
Fixpoint every (P : store -> call -> Prop) (s : store) (h : list call) : Prop :=
  match h with [] => True | k :: h' => P s k /\ allowed s k /\ every P (fst (perform ex_sql ex_contains s k)) h' end.
Lemma after_runs P h : forall s, every P s h -> runs ex_sql ex_contains P s h (after s h).
Proof. induction h as [|k h IH]; intros s; cbn; [constructor|]. intros (A & B & C). econstructor; eauto. Qed.
Lemma after_reached P h : every P ex_new h -> reached ex_sql ex_contains P (after ex_new h).
Proof. intros H. exists (fun _ => None), 1, (fun _ => None), [], h. split; [apply ex_new_good | apply after_runs; exact H]. Qed.
Ltac good_calls := cbn; repeat match goal with |- context [within] => setoid_rewrite <- postOrder_within; cbn end; repeat split; auto; try lia; try tauto; intros; repeat match goal with H : _ \/ _ |- _ => destruct H | H : (_, _) = (_, _) |- _ => injection H as <- <- end; try lia; try tauto.

(** ** C142: a reference gives back the object it was given *)

(** Two programs on objects of the store alone.  In the first, an object is unregistered between the two calls
    and has lost its reference.  In the second, an object is not in the store when it is referred to. *)
Theorem C142_reference_refuted :
  (exists s s' o f r h, reached ex_sql ex_contains own s /\ allowed s (Set_ o f (Some r) false) /\
     runs ex_sql ex_contains (fun s k => own s k /\ forall v n, k <> Set_ o f v n)
       (fst (perform ex_sql ex_contains s (Set_ o f (Some r) false))) h s' /\
     ex_contains f = true /\ answers ex_sql ex_contains s' (Get o f) = Nil) /\
  (exists s o f r, reached ex_sql ex_contains own s /\ allowed s (Set_ o f (Some r) false) /\
     answers ex_sql ex_contains (fst (perform ex_sql ex_contains s (Set_ o f (Some r) false))) (Get o f) = Proxy r).
Proof.
  split.
  - exists (after ex_new [New 0 []; New 0 []]),
      (after ex_new [New 0 []; New 0 []; Set_ 0 0 (Some 1%nat) false; UnRegister (Node 0 [])]), 0%nat, 0%nat, 1%nat,
      [UnRegister (Node 0 [])].
    split; [apply after_reached; good_calls|]. split; [good_calls|].
    split; [|split; reflexivity].
    change (after ex_new [New 0 []; New 0 []; Set_ 0 0 (Some 1%nat) false; UnRegister (Node 0 [])])
      with (after (fst (perform ex_sql ex_contains (after ex_new [New 0 []; New 0 []]) (Set_ 0 0 (Some 1%nat) false)))
                  [UnRegister (Node 0 [])]).
    apply after_runs. good_calls. discriminate.
  - exists (after ex_new [New 0 []; New 0 []]), 0%nat, 1%nat, 1%nat.
    split; [apply after_reached; good_calls|]. split; [good_calls | reflexivity].
Qed.
Print Assumptions C142_reference_refuted.

(** ** C143: while objects stay registered, a reference gives back the object it was given *)

(** ... and goes on giving the same object, also for references that were in the data base already.  A reference
    that does not contain is given an object that is in the store.  Set answers the value before when asked to. *)
Theorem C143_reference : forall sqlClass contains s o f h s',
  reached sqlClass contains steady s ->
  (forall v need,
     allowed s (Set_ o f v need) ->
     (forall r, v = Some r -> contains f = false -> registered s r) ->
     runs sqlClass contains (leaves o f) (fst (perform sqlClass contains s (Set_ o f v need))) h s' ->
     answers sqlClass contains s' (Get o f) = match v with Some r => Object r | None => Nil end) /\
  (forall a,
     allowed s (Get o f) -> answers sqlClass contains s (Get o f) = a -> a <> Nil ->
     runs sqlClass contains (leaves o f) (fst (perform sqlClass contains s (Get o f))) h s' ->
     answers sqlClass contains s' (Get o f) = a) /\
  (forall v need,
     allowed s (Set_ o f v need) -> registered s o ->
     answers sqlClass contains s (Set_ o f v need) =
       if need then answers sqlClass contains s (Get o f) else Nothing).
Proof.
  intros sqlClass contains s o f h s' Hr. apply reached_Good in Hr. split; [|split].
  - intros v need [Ho Hv] Hc R. eapply set_then; eauto. intros r ->. exact Hv.
  - intros a Ho Ha Hn R. eapply get_then; eauto.
  - intros v [] Ha Hg; [apply set_answer | apply set_quiet]; auto.
Qed.
Print Assumptions C143_reference.

(** The value of an object that is not yet stored, and many other calls *)
Example C143_example :
  let h := [New 0 []; New 1 [(0, 0)%nat]; AddRoot 1] in
  let h' := [New 0 []; AddRoot 2; Set_ 1 1 (Some 2%nat) true; RemoveRoot 1; GetRoots; Set_ 2 0 (Some 1%nat) true] in
  reached ex_sql ex_contains steady (after ex_new h) /\
  answers ex_sql ex_contains (after ex_new h) (Get 1 0) = Object 0 /\
  runs ex_sql ex_contains (leaves 1 0) (fst (perform ex_sql ex_contains (after ex_new h) (Get 1 0))) h'
    (after (fst (perform ex_sql ex_contains (after ex_new h) (Get 1 0))) h').
Proof.
  split; [apply after_reached; good_calls|]. split; [reflexivity|]. apply after_runs. good_calls.
Qed.

(** ** C144: GetRoots gives each object that was added, and was not removed since, once *)

(** An object added twice is given twice.  An SQLObject removed from the roots and unregistered cannot be added
    again.  An SQLObject of another store is taken for the one with the same identifier in this store. *)
Theorem C144_roots_refuted :
  (exists s o, reached ex_sql ex_contains own s /\ answers ex_sql ex_contains s GetRoots = Roots [o; o]) /\
  (exists s o, reached ex_sql ex_contains own s /\ allowed s (AddRoot o) /\
     answers ex_sql ex_contains s GetRoots = Roots [] /\ answers ex_sql ex_contains s (AddRoot o) = Failed) /\
  (exists s o o', reached ex_sql ex_contains (fun _ _ => True) s /\ o <> o' /\
     answers ex_sql ex_contains s GetRoots = Roots [o] /\
     answers ex_sql ex_contains (fst (perform ex_sql ex_contains s (AddRoot o'))) GetRoots = Roots [o; o]).
Proof.
  split; [|split].
  - exists (after ex_new [New 0 []; AddRoot 0; AddRoot 0]), 0%nat. split; [apply after_reached; good_calls | reflexivity].
  - exists (after ex_new [New 1 []; AddRoot 0; RemoveRoot 0; UnRegister (Node 0 [])]), 0%nat.
    split; [apply after_reached; good_calls|]. split; [good_calls|]. split; reflexivity.
  - exists (after ex_new [New 1 []; AddRoot 0; Foreign 1 1]), 0%nat, 1%nat.
    split; [apply after_reached; good_calls|]. split; [discriminate|]. split; reflexivity.
Qed.
Print Assumptions C144_roots_refuted.

(** ** C145: while objects stay registered, the roots are a list to which objects are added at its end *)

(** From what GetRoots answered once, its later answers follow; no call fails. *)
Theorem C145_roots : forall sqlClass contains s,
  reached sqlClass contains steady s ->
  (exists l, answers sqlClass contains s GetRoots = Roots l) /\
  (forall l h s', answers sqlClass contains s GetRoots = Roots l ->
     runs sqlClass contains steady (fst (perform sqlClass contains s GetRoots)) h s' ->
     answers sqlClass contains s' GetRoots = Roots (replay h l)) /\
  (forall k, steady s k -> allowed s k -> answers sqlClass contains s k <> Failed).
Proof.
  intros sqlClass contains s Hr. apply reached_Good in Hr. split; [|split].
  - destruct (getRoots_spec sqlClass contains s (proj1 Hr)) as (s1 & L & E & _). exists L. unfold answers. cbn. rewrite E. reflexivity.
  - intros l h s' Ha R. eapply roots_then; eauto.
  - intros k Hk Ha. apply steady_Good; auto.
Qed.
Print Assumptions C145_roots.

(** a data base with two roots *)
Definition ex_rows (i : Z) : option nat := if i =? 1 then Some O else if i =? 2 then Some 1%nat else None.
Definition ex_cells (i : Z) : option (nat -> option cell) :=
  if i =? 1 then Some (fun f => match f with O => Some (CId 2) | _ => None end)
  else if i =? 2 then Some (fun _ => None) else None.
Definition ex_db : store := opened ex_rows 3 ex_cells [1; 2].
Lemma ex_db_reached P : reached ex_sql ex_contains P ex_db.
Proof.
  exists ex_rows, 3, ex_cells, [1; 2], []. split; [|constructor]. unfold ex_rows, ex_cells. constructor.
  - lia.
  - intros i k. destruct (Z.eqb_spec i 1); [intros; lia|]. destruct (Z.eqb_spec i 2); [intros; lia|discriminate].
  - intros i m. destruct (i =? 1); [discriminate|]. destruct (i =? 2); discriminate.
  - intros i m f j. destruct (i =? 1).
    + intros [= <-]. destruct f; [intros [= <-]; discriminate | discriminate].
    + destruct (i =? 2); [intros [= <-]|]; discriminate.
  - intros i [<-|[<-|[]]]; discriminate.
  - intros i k. destruct (i =? 1); [discriminate|]. destruct (i =? 2); discriminate.
Qed.
Example C145_example :
  answers ex_sql ex_contains ex_db GetRoots = Roots [0; 1]%nat /\
  let s := fst (perform ex_sql ex_contains ex_db GetRoots) in
  let h := [New 0 []; AddRoot 2; RemoveRoot 0; Set_ 2 0 (Some 0%nat) true] in
  runs ex_sql ex_contains steady s h (after s h) /\
  answers ex_sql ex_contains (after s h) GetRoots = Roots [1; 2]%nat.
Proof. split; [reflexivity|]. split; [apply after_runs; good_calls | reflexivity]. Qed.

(** ** C146: references of SQLObjects survive UnRegister *)

(** A reference that led to an SQLObject leads, whatever was unregistered meanwhile and whichever object stands
    for its owner, to an object with the same SQL identifier. *)
Theorem C146_identifier_survives : forall sqlClass contains s o f r h s2 o2,
  reached sqlClass contains own s -> allowed s (Get o f) -> sqlClass (class_of s o) = true ->
  answers sqlClass contains s (Get o f) = Object r ->
  let s1 := fst (perform sqlClass contains s (Get o f)) in
  sqlClass (class_of s1 r) = true ->
  runs sqlClass contains (leaves_id (sqlid s1 o) f) s1 h s2 ->
  (o2 < count s2)%nat -> sqlClass (class_of s2 o2) = true -> sqlid s2 o2 = sqlid s1 o ->
  exists r2, answers sqlClass contains s2 (Get o2 f) = Object r2 /\
    sqlid (fst (perform sqlClass contains s2 (Get o2 f))) r2 = sqlid s1 r.
Proof.
  intros sqlClass contains s o f r h s2 o2 Hr Ho Hq Ha s1 Hq1 R Ho2 Hq2 He. apply reached_W in Hr.
  eapply get_then_id; eauto.
Qed.
Print Assumptions C146_identifier_survives.

(** the root and its child are unregistered and read again: objects 2 and 3 stand for them *)
Example C146_example :
  let s := after ex_new [New 1 []; New 1 [(0, 0)%nat]; AddRoot 1] in
  let s1 := fst (perform ex_sql ex_contains s (Get 1 0)) in
  let h := [UnRegister (Node 1 [Node 0 []]); GetRoots] in
  reached ex_sql ex_contains own s /\ answers ex_sql ex_contains s (Get 1 0) = Object 0 /\
  runs ex_sql ex_contains (leaves_id (sqlid s1 1) 0) s1 h (after s1 h) /\
  sqlid (after s1 h) 2 = sqlid s1 1 /\
  answers ex_sql ex_contains (after s1 h) (Get 2 0) = Object 3.
Proof.
  split; [apply after_reached; good_calls|]. split; [reflexivity|]. split; [apply after_runs; good_calls|].
  split; reflexivity.
Qed.

(** ** C147: UnRegister forgets the objects it is given and no others *)

(** An object that was unregistered before takes the place it had away from the object that stands for it now:
    GetRoots answered object 1, which nobody unregistered, and answers a third one. *)
Theorem C147_unregister_refuted : exists s o x y t,
  reached ex_sql ex_contains own s /\ answers ex_sql ex_contains s GetRoots = Roots [x] /\
  t = Node o [] /\ o <> x /\ allowed s (UnRegister t) /\
  answers ex_sql ex_contains (fst (perform ex_sql ex_contains s (UnRegister t))) GetRoots = Roots [y] /\ y <> x.
Proof.
  exists (after ex_new [New 1 []; AddRoot 0; UnRegister (Node 0 []); GetRoots]), 0%nat, 1%nat, 2%nat, (Node 0 []).
  split; [apply after_reached; good_calls|]. repeat split; try discriminate; good_calls.
Qed.
Print Assumptions C147_unregister_refuted.

(** ** C148: the first UnRegister forgets the objects it is given and no others *)

(** Read through an object that is kept, a reference gives the same object if that one is kept too, and a new
    object otherwise. *)
Theorem C148_unregister : forall sqlClass contains s,
  reached sqlClass contains steady s ->
  (forall t, allowed s (UnRegister t) -> forall o,
     registered (fst (perform sqlClass contains s (UnRegister t))) o <-> registered s o /\ ~ within o t) /\
  (forall o f r t, allowed s (Get o f) -> answers sqlClass contains s (Get o f) = Object r ->
     let s1 := fst (perform sqlClass contains s (Get o f)) in
     allowed s1 (UnRegister t) -> ~ within o t ->
     let s2 := fst (perform sqlClass contains s1 (UnRegister t)) in
     (~ within r t -> answers sqlClass contains s2 (Get o f) = Object r) /\
     (within r t -> exists r', answers sqlClass contains s2 (Get o f) = Object r' /\ (count s1 <= r')%nat)).
Proof.
  intros sqlClass contains s Hr. apply reached_Good in Hr. split.
  - intros t Ha o. rewrite <- postOrder_within. apply registered_exact; auto.
  - intros o f r t Ho Ha s1 Hal Hn s2. rewrite <- !postOrder_within in *.
    pose proof (unregister_get sqlClass contains s o f r t Hr Ho Ha Hal Hn) as E. fold s1 s2 in E.
    destruct (in_dec Nat.eq_dec r (postOrder t)) as [Hi|Hi]; split; intros; try contradiction; eauto.
Qed.
Print Assumptions C148_unregister.

Example C148_example :
  let s := after ex_new [New 1 []; New 0 [(0, 0)%nat]; AddRoot 1] in
  let s1 := fst (perform ex_sql ex_contains s (Get 1 0)) in
  reached ex_sql ex_contains steady s /\ answers ex_sql ex_contains s (Get 1 0) = Object 0 /\
  registered s1 0 /\ allowed s1 (UnRegister (Node 0 [])) /\ ~ within 1 (Node 0 []) /\
  answers ex_sql ex_contains (fst (perform ex_sql ex_contains s1 (UnRegister (Node 0 [])))) (Get 1 0) = Object 2.
Proof.
  split; [apply after_reached; good_calls|]. split; [reflexivity|]. split; [exists 2; reflexivity|].
  split; [good_calls|]. split; [intros H; inversion H as [|? ? ? Q]; destruct Q | reflexivity].
Qed.
