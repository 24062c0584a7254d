(** Independent vocabulary for the grid in double arithmetic (C87). *)
From Coq Require Import ZArith Reals.
From Flocq Require Import Core.Core IEEE754.BinarySingleNaN.
From Verif Require Import Float.
Local Open Scope R_scope.

(** resolutions whose reciprocal neither overflows nor becomes subnormal *)
Definition resolution64 (rs : f64) : Prop :=
  is_finite rs = true /\ bpow radix2 (-990) <= B2R rs <= bpow radix2 1021.

(** [n] is a nearest integer to [x], up to one rounding error of [x] *)
Definition almost_nearest (x : R) (n : Z) : Prop := Rabs (x - IZR n) <= / 2 + bpow radix2 (-53) * Rabs x.

(** [n] is [x] rounded up, or one less when [x] passes [n] by no more than a rounding error *)
Definition count_of (x : R) (n : Z) : Prop :=
  n = Zceil x \/
  (n = (Zceil x - 1)%Z /\ (Rabs (x - IZR n) <= bpow radix2 (-53) * Rabs x \/ Rabs x < bpow radix2 (-1022))).
