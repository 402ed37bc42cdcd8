(** Model of the list reconciliation done by the binary decoder when a reference list is read:
    ecore/binarydecoder.go:296-336 (second half of decodeObjects).

    [list] is the contents of a unique list (ListModel), [objects] the decoded slice.  The list is used
    through its public operations only; callbacks are dropped. *)
From Verif Require Import Base ListModel.

Section BinaryList.
  Context {A : Type} (eqb : A -> A -> bool) (nilv : A).

  (** list.Move(i, j), list.AddAll(c) on a list of the given uniqueness; [None] = panic *)
  Definition list_do (unique : bool) (data : list A) (o : op A) : option (list A) :=
    match step eqb nilv unique data o with
    | Ret (d, _) _ => Some d
    | Panic => None
    end.

  (** binarydecoder.go:310-323: the inner loop; the position [j] of [o] among the existing objects
      that are not yet matched, and [count] *)
  Fixpoint find_existing (o : A) (existing : list A) (j count : Z) : option (Z * Z) :=
    match existing with
    | [] => None
    | x :: existing' =>
        if eqb x o then Some (j, count)
        else find_existing o existing' (j + 1) (if eqb x nilv then count else count + 1)
    end.

  Record rstate := mkR {
    r_list : list A;       (* list *)
    r_objects : list A;    (* objects *)
    r_indices : list Z;    (* indices *)
    r_dup : Z;             (* duplicateCount *)
    r_existing : list A }. (* existingObjects *)

  (** binarydecoder.go:307-325, one turn *)
  Definition match_one (unique : bool) (i : Z) (s : rstate) : option rstate :=
    let? o := zget (r_objects s) i in
    match find_existing o (r_existing s) 0 (r_dup s) with
    | Some (j, count) =>
        let? l := (if negb (r_dup s =? count)
                   then list_do unique (r_list s) (Move count (r_dup s))
                   else Some (r_list s)) in
        let? ind := zset (r_indices s) (r_dup s) i in
        let? ex := zset (r_existing s) j nilv in
        Some (mkR l (r_objects s) ind (r_dup s + 1) ex)
    | None =>
        let? obj := zset (r_objects s) (i - r_dup s) o in
        Some (mkR (r_list s) obj (r_indices s) (r_dup s) (r_existing s))
    end.

  (** binarydecoder.go:307: for i := 0; i < size; i++; [n] turns are left *)
  Fixpoint match_all (unique : bool) (n : nat) (i : Z) (s : rstate) : option rstate :=
    match n with
    | O => Some s
    | S n' => let? s' := match_one unique i s in match_all unique n' (i + 1) s'
    end.

  (** binarydecoder.go:329-335: [n] turns are left *)
  Fixpoint place_all (unique : bool) (n : nat) (i size : Z) (indices : list Z) (l : list A) : option (list A) :=
    match n with
    | O => Some l
    | S n' =>
        let? newPosition := zget indices i in
        let oldPosition := size + i in
        let? l' := (if negb (newPosition =? oldPosition)
                    then list_do unique l (Move oldPosition newPosition)
                    else Some l) in
        place_all unique n' (i + 1) size indices l'
    end.

  (** binarydecoder.go:296-336 *)
  Definition reconcile (unique : bool) (list objects : list A) : option (Datatypes.list A) :=
    let existingSize := zlen list in
    if existingSize =? 0 then list_do unique list (AddAll (Ext objects))
    else
      let? s := match_all unique (length objects) 0
                  (mkR list objects (repeat 0 (length list)) 0 list) in
      let? l := list_do unique (r_list s) (AddAll (Ext (r_objects s))) in
      place_all unique (length list) 0 (zlen objects - existingSize) (r_indices s) l.
End BinaryList.
