From Verif Require Import Base LockModel.

(** session i is between lock(k) and unlock(k) *)
Definition in_section (s : mgr) (i k : nat) : Prop := exists m, nth_error (pcs s) i = Some (Crit k m).
Definition mutual_exclusion (s : mgr) : Prop := forall i j k, in_section s i k -> in_section s j k -> i = j.
Definition all_idle (s : mgr) : Prop := forall i x, nth_error (pcs s) i = Some x -> x = Idle.
