(** Model of Lock and Unlock of objects with a store (ecore/estoreeobject_impl.go:43-59), and of the encoder of the
    SQL store that uses them (ecore/sqlencoder.go:347-414).

    The mutexes are recursive: per list, the number of times the goroutine has taken its mutex.  A negative number
    stands for giving back a mutex that is not held.  The object's own mutex is taken and given back in pairs and left
    out.  Of the encoder, the calls on the object are modelled, not the rows written. *)
From Verif Require Import Base ListModel NotifyModel StoreListModel StoreObjModel.

Section StoreLockModel.
  Context {A : Type} (kind : nat -> fkind).
  (** the number of features *)
  Context (count : nat).

  Definition locked_by := nat -> Z.
  (** estoreeobject_impl.go:45-49, 53-57: the lists among the properties, in order *)
  Definition overLists (w : world A) (by_ : Z) (k : locked_by) : locked_by :=
    fold_left (fun k f => match wprops w f with Some (PList i) => upd k i (k i + by_) | _ => k end) (seq 0 count) k.
  Definition oLock (w : world A) (k : locked_by) : locked_by := overLists w 1 k.
  Definition oUnlock (w : world A) (k : locked_by) : locked_by := overLists w (-1) k.

  (** sqlencoder.go:354-396: the features that are set are read, one after the other; lines 277-279 without default
      values (the option to keep defaults is left out) *)
  Fixpoint encodeFeatures (w : world A) (fs : list nat) : world A :=
    match fs with
    | [] => w
    | f :: fs' => encodeFeatures (if wIsSet kind w f then fst (wGet kind w f) else w) fs'
    end.
  (** sqlencoder.go:347-414 with sqlstore.go:328-333: Lock, the features [fs] are read, the object gets the store [t],
      and, deferred, Unlock *)
  Definition encodeObject (w : world A) (fs : list nat) (t : nat) (k : locked_by) : world A * locked_by :=
    let k1 := oLock w k in
    let w1 := encodeFeatures w fs in
    let w2 := wSetEStore kind w1 (Some t) in
    (w2, oUnlock w2 k1).
End StoreLockModel.
