(** Simple materials in IEEE double arithmetic: C42. *)
From Coq Require Import ZArith Reals Lra Lia.
From Flocq Require Import Core.Core IEEE754.BinarySingleNaN.
From Verif Require Import Scalar MaterialM Float FloatFacts SpecDark DarkCase SpecWhole SpecSolid SolidFacts.
Local Open Scope R_scope.

(** with eps at least 1, a conductivity that is not negative and any time step, all below 2^300, the
    computed coefficients are finite, Ca between -1 and 1 and Cb between 0 and dt *)
Theorem C42_damped_double : forall (L : libm) (dt : f64) (m : @simple (B64 L)), time_step dt -> solid m ->
  damped (simple_Ca m dt) (simple_Cb m dt) dt.
Proof. exact solid_damped. Qed.
Print Assumptions C42_damped_double.

(** without conductivity Ca is exactly 1 and Cb is dt / eps rounded once, to the nearest double *)
Theorem C42_lossless_double : forall (L : libm) (dt : f64) (m : @simple (B64 L)), time_step dt -> solid m -> B2R (sm_conduc m : f64) = 0 ->
  is_finite (simple_Ca m dt : f64) = true /\ B2R (simple_Ca m dt : f64) = 1 /\
  B2R (simple_Cb m dt : f64) = round radix2 (FLT_exp (-1074) 53) ZnearestE (B2R dt / B2R (sm_eps m : f64)).
Proof. exact solid_lossless. Qed.
Print Assumptions C42_lossless_double.

(** eps = 3 with and without conductivity, dt = 1 *)
Example C42_double_case : let glass (c : Z) := @Simple (B64 toy) (f64_ofZ 3) (f64_ofZ 1) (f64_ofZ c) in
  time_step (f64_ofZ 1) /\ solid (glass 5%Z) /\ solid (glass 0%Z) /\ B2R (sm_conduc (glass 0%Z) : f64) = 0.
Proof.
  destruct (f64_ofZ_correct 1) as [A1 A2]; [lia|]. destruct (f64_ofZ_correct 3) as [B1 B2]; [lia|]. destruct (f64_ofZ_correct 5) as [C1 C2]; [lia|]. destruct (f64_ofZ_correct 0) as [D1 D2]; [lia|].
  assert (W : 8 <= bpow radix2 300) by (change 8 with (bpow radix2 3); apply bpow_le; lia).
  unfold time_step, solid. cbn [sm_eps sm_conduc]. rewrite A1, B1, C1, D1. repeat split; try assumption; lra.
Qed.
