(** Model of the loaded flag of a resource and of the notifications about it (ecore/eresource_impl.go:99-135, 206-211,
    419-503, 563-574, with the callbacks of ecore/basicelist.go:63-180).

    Contents lists are numbered in the order in which GetContents makes them; of each only the size is modelled.  There
    is a listener that asks for notifications.  Loading: a codec and a reader exist, and the decoder (or a listener
    called meanwhile) makes the calls given. *)
From Verif Require Import Base.

(** flag, the current contents list, sizes of all lists made so far, IS_LOADED notifications sent (old, new) *)
Record rstate := Rs { flag : bool; cur : option nat; sizes : list nat; told : list (bool * bool) }.
(** NewEResourceImpl *)
Definition newResource : rstate := Rs false None [] [].

(** eresource_impl.go:118-134 (loaded, unloaded) with 563-574 *)
Definition setLoaded (b : bool) (s : rstate) : rstate :=
  if Bool.eqb (flag s) b then s else Rs b (cur s) (sizes s) (told s ++ [(flag s, b)]).
Fixpoint put_size (l : list nat) (i x : nat) : list nat :=
  match l, i with [], _ => [] | _ :: r, O => x :: r | y :: r, S j => y :: put_size r j x end.
Definition resize (s : rstate) (h z : nat) : rstate := Rs (flag s) (cur s) (put_size (sizes s) h z) (told s).

(** calls on the list number [h]: [n] objects added at [i] (Add, Insert, AddAll, InsertAll), [n] removed at [i] (Remove,
    RemoveAt, RemoveRange), Clear *)
Inductive lop := LInsert (h i n : nat) | LRemove (h i n : nat) | LClear (h : nat).
(** [None]: the index is out of bounds, or there is no such list *)
Definition lstep (s : rstate) (o : lop) : option rstate :=
  match o with
  (** basicelist.go:84-105 with eresource_impl.go:99-104 (DidAdd) *)
  | LInsert h i n =>
      let? z := nth_error (sizes s) h in
      if (i <=? z)%nat
      then Some (fold_left (fun s j => if (j =? z + n - 1)%nat then setLoaded true s else s) (seq i n) (resize s h (z + n)))
      else None
  (** basicelist.go:125-152 with eresource_impl.go:106-111 (DidRemove) *)
  | LRemove h i n =>
      let? z := nth_error (sizes s) h in
      if (i + n <=? z)%nat
      then Some (fold_left (fun s _ => if (z - n =? 0)%nat then setLoaded false s else s) (seq i n) (resize s h (z - n)))
      else None
  (** basicelist.go:169-178 with eresource_impl.go:113-116 (DidClear) *)
  | LClear h => let? z := nth_error (sizes s) h in Some (setLoaded false (resize s h 0))
  end.

(** eresource_impl.go:206-211 *)
Definition getContents (s : rstate) : rstate :=
  match cur s with Some _ => s | None => Rs (flag s) (Some (length (sizes s))) (sizes s ++ [0%nat]) (told s) end.
Inductive dop := DGet | DOn (o : lop).
Definition dstep (s : rstate) (o : dop) : option rstate := match o with DGet => Some (getContents s) | DOn o => lstep s o end.
Fixpoint drun (s : rstate) (l : list dop) : option rstate :=
  match l with [] => Some s | o :: l' => let? s' := dstep s o in drun s' l' end.

Inductive rop := ROp (o : dop) | RLoad (l : list dop) | RUnload.
Definition rstep (s : rstate) (o : rop) : option rstate :=
  match o with
  | ROp o => dstep s o
  (** eresource_impl.go:440-468: the notification made first is sent last *)
  | RLoad l =>
      if flag s then Some s
      else let? s' := drun (Rs true (cur s) (sizes s) (told s)) l in
           Some (Rs (flag s') (cur s') (sizes s') (told s' ++ [(false, true)]))
  (** eresource_impl.go:474-491 *)
  | RUnload => Some (if flag s then Rs false None (sizes s) (told s ++ [(true, false)]) else s)
  end.
Fixpoint rrun (s : rstate) (l : list rop) : option rstate :=
  match l with [] => Some s | o :: l' => let? s' := rstep s o in rrun s' l' end.
