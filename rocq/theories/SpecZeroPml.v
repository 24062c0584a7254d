(** What it means for NaN to spread: C's rules for NaN, and distance from the edge of the grid. *)
From Coq Require Import ZArith Reals.
From Flocq Require Import IEEE754.BinarySingleNaN.
From Verif Require Import Float GridM.
Local Open Scope Z_scope.

(** ISO C Annex F.10: exp(NaN) is NaN, and pow(NaN, n) is NaN unless n is 0 *)
Definition nan_libm (L : libm) : Prop :=
  lm_exp L B754_nan = B754_nan /\ forall n, n <> 0 -> lm_pow L B754_nan n = B754_nan.

(** cells strictly inside an n by m grid at most d cells away from its edge *)
Definition rim (n m d i j : Z) : Prop :=
  (1 <= i < n - 1 /\ 1 <= j < m - 1) /\ (i <= d \/ n - 1 - i <= d \/ j <= d \/ m - 1 - j <= d).
