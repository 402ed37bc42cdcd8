(** Goroutines that encode objects (EncodeModel) while other operations of the store register and unregister objects:
    getSQLID registers an object it finds in the database (ecore/sqlstore.go:943-967), UnRegister clears ids
    (ecore/sqlstore.go:1844-1860 with 407-418).  Only what these do to the ids is modelled, at any moment and for any
    object. *)
From Verif Require Import Base EncodeModel.

Section EncodeClearModel.
  Context (kids : nat -> list nat).
  (** what other operations do: sqlstore.go:961-964, and 407-418 *)
  Inductive ids_change : state -> state -> Prop :=
  | ic_register o sh ts : ids_change (sh, ts) (Sh (set (ids sh) o true) (owner sh) (rows sh) (full sh), ts)
  | ic_clear o sh ts : ids_change (sh, ts) (Sh (set (ids sh) o false) (owner sh) (rows sh) (full sh), ts).
  (** [erun s n s']: with [n] steps of the goroutines *)
  Inductive erun : state -> nat -> state -> Prop :=
  | erun_nil s : erun s 0 s
  | erun_step s n s' s'' : erun s n s' -> step kids s' s'' -> erun s (S n) s''
  | erun_ids s n s' s'' : erun s n s' -> ids_change s' s'' -> erun s n s''.
End EncodeClearModel.
