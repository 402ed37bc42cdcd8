(** Go's float32 and float64 as IEEE 754 values (Coq.Floats.SpecFloat), and their conversions
    (The Go Programming Language Specification, "Conversions between numeric types"). *)
From Coq Require Import SpecFloat.
From Verif Require Import Base.
Open Scope Z_scope.

Notation float := spec_float.
Definition is_float64 (x : float) : Prop := valid_binary 53 1024 x = true.
Definition is_float32 (x : float) : Prop := valid_binary 24 128 x = true.

(** float64(x) for a float32, float32(x) for a float64: rounding to nearest even *)
Definition widen (x : float) : float :=
  match x with S754_finite s m e => binary_round 53 1024 s m e | _ => x end.
Definition narrow (x : float) : float :=
  match x with S754_finite s m e => binary_round 24 128 s m e | _ => x end.
