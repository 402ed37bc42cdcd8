(** Model of ecore/elist.go:56-72 (BinarySearch).

    The comparison function is assumed pure.  The list is read through Size/Get (see [ListModel]).
    The midpoint is computed in 64-bit unsigned arithmetic as in the code. *)
From Verif Require Import Base.

Inductive search_result := Found (i : Z) (found : bool) | SearchPanic | OutOfFuel.

Section SearchModel.
  Context {A T : Type} (cmp : A -> T -> Z).

  (** elist.go:62: int(uint(i+j) >> 1); the sum wraps modulo 2^64 *)
  Definition midpoint (i j : Z) : Z := Z.shiftr ((i + j) mod 2 ^ 64) 1.

  (** elist.go:61-71 *)
  Fixpoint search_loop (fuel : nat) (l : list A) (target : T) (i j : Z) : search_result :=
    match fuel with
    | O => OutOfFuel
    | S fuel' =>
        if i <? j
        then let h := midpoint i j in
             match zget l h with
             | None => SearchPanic
             | Some x => if cmp x target <? 0
                         then search_loop fuel' l target (h + 1) j
                         else search_loop fuel' l target i h
             end
        else if i <? zlen l
             then match zget l i with
                  | None => SearchPanic
                  | Some x => Found i (cmp x target =? 0)
                  end
             else Found i false
    end.

  (** elist.go:56-60 *)
  Definition BinarySearch (l : list A) (target : T) : search_result :=
    search_loop (S (length l)) l target 0 (zlen l).
End SearchModel.
