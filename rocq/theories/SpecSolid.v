(** Simple materials in double arithmetic (C42). *)
From Coq Require Import ZArith Reals.
From Flocq Require Import Core.Core IEEE754.BinarySingleNaN.
From Verif Require Import Scalar MaterialM Float SpecDouble SpecWhole.
Local Open Scope R_scope.

(** a time step that is not negative and below 2^300 *)
Definition time_step (dt : f64) : Prop := is_finite dt = true /\ 0 <= B2R dt <= bpow radix2 300.
(** Ca damps and does not amplify, Cb is at most the time step *)
Definition damped (ca cb dt : f64) : Prop :=
  is_finite ca = true /\ is_finite cb = true /\ -1 <= B2R ca <= 1 /\ 0 <= B2R cb <= B2R dt.
