(** The loaded flag of resources that are also loaded from documents. *)
From Verif Require Import Base LoadedModel LoadedSpec LoadedProofs LoadedDocSpec LoadedDocProofs.

(** *** C177: a resource with contents is loaded; one loaded without contents was loaded from a document

    when calls go to the list that GetContents returns at that time, also while a document is read; the document was
    read into a resource that was not loaded, and there was no Unload since *)
Theorem C177_contents_or_document (l : list rop) (s : rstate) : current_too newResource l -> rrun newResource l = Some s ->
  ((0 < size s)%nat -> flag s = true)
  /\ (flag s = true -> size s = 0%nat ->
      exists l1 ops l2 s1, l = l1 ++ RLoad ops :: l2 /\ rrun newResource l1 = Some s1 /\ flag s1 = false /\ ~ In RUnload l2).
Proof.
  intros C R. destruct (run_backed l newResource s) as [B D]; [split; [cbn; unfold size; cbn; lia|discriminate]|exact C|exact R|].
  split; [exact (proj1 B)|]. intros F Z. destruct (D F Z) as [H|(H & _)]; [exact H|discriminate].
Qed.
Print Assumptions C177_contents_or_document.

(** an empty document is loaded after objects were added and unloaded; then objects are added again *)
Example C177_case : let l := [ROp DGet; ROp (DOn (LInsert 0 0 2)); RUnload; RLoad [DGet; DOn (LInsert 1 0 1); DOn (LRemove 1 0 1)];
                              RLoad []; ROp (DOn (LInsert 1 0 0))]%nat in
  current_too newResource l /\ option_map (fun s => (flag s, size s)) (rrun newResource l) = Some (true, 0%nat)
  /\ option_map (fun s => (flag s, size s)) (rrun newResource (l ++ [ROp (DOn (LInsert 1 0 3))])) = Some (true, 3%nat).
Proof. split; [cbn; repeat split|split; reflexivity]. Qed.
