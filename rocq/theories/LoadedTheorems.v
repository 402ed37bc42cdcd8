(** The loaded flag of a resource, the notifications about it, and its contents. *)
From Verif Require Import Base LoadedModel LoadedSpec LoadedProofs.

(** *** C174: a listener that follows the notifications about the loaded flag knows the flag

    The full claim is [forall l s, rrun newResource l = Some s -> replay false (told s) = Some (flag s)].
    False: the notification of a load is made before the document is read and sent after it, so when the contents are
    emptied meanwhile the listener is told of the unloading first, and believes in the end that the resource is loaded. *)
Theorem C174_listener_refuted : exists l s, rrun newResource l = Some s
  /\ flag s = false /\ told s = [(true, false); (false, true)] /\ replay false (told s) = None.
Proof.
  exists [RLoad [DGet; DOn (LInsert 0 0 1); DOn (LRemove 0 0 1)]%nat]. eexists. split; [reflexivity|]. now cbn.
Qed.
Print Assumptions C174_listener_refuted.

(** true when objects are only added while a document is read; missing: removals meanwhile *)
Theorem C174_listener_partial (l : list rop) (s : rstate) : loads_add l -> rrun newResource l = Some s ->
  replay false (told s) = Some (flag s).
Proof. intros A R. exact (follows_run l newResource s A eq_refl R). Qed.
Print Assumptions C174_listener_partial.

Definition ld_history : list rop :=
  [RLoad [DGet; DOn (LInsert 0 0 2)]; ROp (DOn (LRemove 0 1 1)); ROp (DOn (LInsert 0 0 1)); RUnload; ROp DGet; ROp (DOn (LInsert 1 0 2));
   ROp (DOn (LInsert 1 1 3)); ROp (DOn (LClear 1)); ROp (DOn (LInsert 0 2 1))]%nat.
Example C174_case : loads_add ld_history
  /\ option_map (fun s => (told s, flag s)) (rrun newResource ld_history)
     = Some ([(false, true); (true, false); (false, true); (true, false); (false, true)], true).
Proof.
  split; [|reflexivity]. intros ops H. cbn in H. repeat (destruct H as [H|H]; [try discriminate H|]); [|contradiction].
  injection H as <-. repeat constructor.
Qed.

(** *** C175: a resource that is not loaded from a document is loaded exactly when it has contents, across Unload

    The full claim is [forall l s, (forall ops, ~ In (RLoad ops) l) -> rrun newResource l = Some s -> (flag s = true <-> 0 < size s)].
    False both ways: the list got before Unload still sets and clears the flag of the resource that has dropped it.
    Then Load does nothing, although there are no contents; or it reads a document into contents that are there. *)
Theorem C175_loaded_contents_refuted :
  (exists l s, (forall ops, ~ In (RLoad ops) l) /\ rrun newResource l = Some s
     /\ flag s = true /\ size s = 0%nat /\ forall ops, rstep s (RLoad ops) = Some s)
  /\ exists l s, (forall ops, ~ In (RLoad ops) l) /\ rrun newResource l = Some s /\ flag s = false /\ size s = 1%nat.
Proof.
  split.
  - exists [ROp DGet; ROp (DOn (LInsert 0 0 1)); RUnload; ROp (DOn (LInsert 0 1 1))]%nat. eexists.
    split; [intros ops H; cbn in H; intuition discriminate|]. split; [reflexivity|]. repeat split.
  - exists [ROp DGet; ROp (DOn (LInsert 0 0 1)); RUnload; ROp DGet; ROp (DOn (LInsert 1 0 1)); ROp (DOn (LRemove 0 0 1))]%nat. eexists.
    split; [intros ops H; cbn in H; intuition discriminate|]. split; [reflexivity|]. repeat split.
Qed.
Print Assumptions C175_loaded_contents_refuted.

(** true when calls go to the list that GetContents returns at that time; missing: lists got before Unload *)
Theorem C175_loaded_contents_partial (l : list rop) (s : rstate) : current newResource l -> rrun newResource l = Some s ->
  flag s = true <-> (0 < size s)%nat.
Proof.
  intros C R. refine (proj1 (agrees_run l newResource s _ C R)). split; [|discriminate]. cbn. split; [discriminate|lia].
Qed.
Print Assumptions C175_loaded_contents_partial.

Example C175_case : let l := [ROp DGet; ROp (DOn (LInsert 0 0 2)); ROp (DOn (LRemove 0 0 1)); RUnload; ROp DGet; ROp (DOn (LInsert 1 0 1));
                              ROp (DOn (LClear 1)); ROp (DOn (LInsert 1 0 3)); ROp (DOn (LInsert 1 1 2))]%nat in
  current newResource l /\ option_map (fun s => (flag s, size s)) (rrun newResource l) = Some (true, 5%nat).
Proof. split; [|reflexivity]. cbn. repeat split. Qed.
