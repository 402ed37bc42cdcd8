(** What a listener can still tell about the loaded flag when contents are removed while a document is read. *)
From Verif Require Import Base LoadedModel LoadedCountSpec LoadedCountProofs.

(** *** C176: the notifications that a resource was loaded and unloaded, counted, give the flag

    in whatever order they come (see C174), and each of them is a change *)
Theorem C176_counted (l : list rop) (s : rstate) : rrun newResource l = Some s ->
  ups (told s) = (downs (told s) + (if flag s then 1 else 0))%nat /\ Forall change (told s).
Proof.
  intro R. destruct (counts_rrun l newResource s) as [C F]; [split; [reflexivity|constructor]|exact R|]. split; [lia|exact F].
Qed.
Print Assumptions C176_counted.

(** contents emptied while a document is read, then filled through a list kept across Unload *)
Example C176_case : option_map (fun s => (flag s, told s))
  (rrun newResource [RLoad [DGet; DOn (LInsert 0 0 1); DOn (LClear 0)]; ROp (DOn (LInsert 0 0 2)); RUnload; ROp (DOn (LInsert 0 2 1))]%nat)
  = Some (true, [(true, false); (false, true); (false, true); (true, false); (false, true)]).
Proof. reflexivity. Qed.
