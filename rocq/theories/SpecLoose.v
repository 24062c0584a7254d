(** The absorbing layer in double arithmetic (C23): what is asked of exp and pow, and coefficients
    that damp. *)
From Coq Require Import ZArith Reals.
From Flocq Require Import Core.Core IEEE754.BinarySingleNaN.
From Verif Require Import Scalar Float SpecStep.
Local Open Scope R_scope.

(** exp of a non-positive number lies between 0 and 1; the first three powers of 0 and of numbers
    between 2^-40 and 2 are right up to a factor of 2.  Far less than any libm delivers. *)
Definition loose_libm (L : libm) : Prop :=
  (forall x : f64, is_finite x = true -> B2R x <= 0 -> is_finite (lm_exp L x) = true /\ 0 <= B2R (lm_exp L x) <= 1) /\
  (forall (x : f64) n, is_finite x = true -> (1 <= n <= 3)%Z -> B2R x = 0 \/ bpow radix2 (-40) <= B2R x <= 2 ->
     is_finite (lm_pow L x n) = true /\ B2R x ^ Z.to_nat n / 2 <= B2R (lm_pow L x n) <= 2 * B2R x ^ Z.to_nat n).

(** resolutions between 2^-300 and 2^300 *)
Definition handy_resolution (rs : f64) : Prop :=
  is_finite rs = true /\ bpow radix2 (-300) <= B2R rs <= bpow radix2 300.

(** a recursion q := b q + c d that does not amplify, up to one rounding error *)
Definition damping (b c : f64) : Prop :=
  is_finite b = true /\ is_finite c = true /\ 0 <= B2R b <= 1 /\ -1 <= B2R c <= 0 /\
  Rabs (B2R c) <= (1 - B2R b) * (1 + bpow radix2 (-53)).

(** every recursion coefficient and cell size the update of an n by m grid reads *)
Definition usable_layer {L : libm} (n m th : Z) (dx : f64) (x : @medium (B64 L)) : Prop :=
  let cell (s : f64) := is_finite s = true /\ B2R s = B2R dx in
  (forall d, (1 <= d <= th)%Z -> damping (bEx x d) (cEx x d) /\ damping (bEy x d) (cEy x d)) /\
  (forall d, (1 <= d < th)%Z -> damping (bHx x d) (cHx x d) /\ damping (bHy x d) (cHy x d)) /\
  (forall i, (1 <= i < n - 1)%Z -> cell (sEx x i) /\ cell (sHx x i)) /\
  (forall j, (1 <= j < m - 1)%Z -> cell (sEy x j) /\ cell (sHy x j)).
