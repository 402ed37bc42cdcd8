(** A small package, for the examples and counterexamples of MetaTheorems. *)
From Coq Require Import String.
From Verif Require Import Base Chars FloatModel LiteralModel MetaModel MetaSpec.
Local Open Scope string_scope.
Local Open Scope list_scope.
Local Open Scope Z_scope.

(** classes A and B, data types I (int) and S (string), in package 0; the class 4, C, is in no package; feature 0 is
    of type I, feature 1 of type A *)
Definition class_ (n : string) (p : option nat) := mkClassifier (lit n) None None true VNil false p (-1).
Definition data_ (n i : string) (p : option nat) := mkClassifier (lit n) None (Some (mkD None (lit i) [])) true VNil false p (-1).
Definition small : world :=
  mkWorld (fun c => match c with
                    | 0%nat => class_ "A" (Some 0%nat) | 1%nat => class_ "B" (Some 0%nat)
                    | 2%nat => data_ "I" "int" (Some 0%nat) | 3%nat => data_ "S" "string" (Some 0%nat)
                    | 4%nat => class_ "C" None | 5%nat => data_ "D" "" None | _ => class_ "Z" None end)
          (fun p => match p with
                    | 0%nat => mkPackage (lit "small") [0; 1; 2; 3]%nat (Some 0%nat) true None
                    | _ => mkPackage (lit "other") [] None true None end)
          (fun f => match f with
                    | 0%nat => mkFeature (Some 2%nat) [] 1 VNil None None
                    | 1%nat => mkFeature (Some 0%nat) [] 1 VNil None None
                    | _ => mkFeature None [] 1 VNil None None end)
          (fun _ => None).
Definition no_float : float := SpecFloat.S754_zero false.
Definition create (g : nat) (d : datatype) (s : str) : option gval := createFromString (fun _ => no_float) (fun _ => no_float) d s.
Definition convert (g : nat) (d : datatype) (v : gval) : option str := convertToString (fun _ => []) (fun _ => []) d v.
Definition ran (h : list op) : world := match run create convert h small with Some w => w | None => small end.

Lemma small_fresh : fresh small.
Proof.
  split; [ | split; [ | split]].
  - intros c. do 6 (destruct c; [cbn; auto | ]). cbn. auto.
  - intros p. destruct p; cbn; auto.
  - intros f. do 2 (destruct f; [cbn; auto | ]). cbn. auto.
  - reflexivity.
Qed.
Lemma small_consistent : consistent small.
Proof.
  split.
  - intros p. destruct p; cbn; repeat constructor; cbn; intuition; try discriminate.
  - intros p c. do 6 (destruct c; [destruct p; cbn; intuition (try discriminate; try congruence) | ]).
    destruct p; cbn; intuition (try discriminate; try congruence).
Qed.
