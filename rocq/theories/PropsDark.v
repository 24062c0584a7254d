(** C18 in double arithmetic. *)
From Coq Require Import ZArith String List.
From Flocq Require Import IEEE754.BinarySingleNaN.
From Verif Require Import Float Scalar Base VecM GridM GeometryM MaterialM PmlM DftM TfsfM PolarM InterpM H5M ClockM MonitorM FieldM
  SpecZeroPml SpecDark DarkRun DarkCase.
Import ListNotations.
Local Open Scope Z_scope.

(** C18 in doubles, for any exp, sin, cos and pow: from a new field, through any calls that add no
    source and no TFSF, every Ez, Hx, Hy, PML memory, previous Ez and polarisation current is +0 or
    -0, as long as the coefficients of the grid, the PML and the added materials are finite and
    nothing divides by zero or NaN.  Missing for the full claim: grids and materials whose
    coefficients are not finite; for them it is false, see below. *)
Theorem C18_double_partial : forall (L : libm) (g : @grid (B64 L)) name s0 l s, mk_field g name = Ok s0 ->
  calm_start (N := B64 L) finite64 divisor64 g s0 -> Forall (unlit_cmd (N := B64 L) finite64 (g_dt g)) l ->
  run l s0 = Fine s -> all_dark (N := B64 L) zero64 (f_ph s).
Proof. exact dark64. Qed.
(** a simple dielectric, two Debye poles, a Drude and a Lorentz medium, overlapping; updates before,
    between and after *)
Example C18_double_case : exists g s0 s, mk_grid (N := B64 toy) (nofZ 8) (nofZ 8) (nofZ 1) 2 = Ok g /\ mk_field g "out" = Ok s0 /\
  calm_start (N := B64 toy) finite64 divisor64 g s0 /\ Forall (unlit_cmd (N := B64 toy) finite64 (g_dt g)) toy_cmds /\ run toy_cmds s0 = Fine s.
Proof. exact toy_case. Qed.

(** Without those conditions C18 is false in doubles: a grid with pml_thickness 0, no source, no
    object, three updates, and the whole interior of Ez is NaN. *)
Theorem C18_double_refuted : forall L : libm, nan_libm L -> exists (g : @grid (B64 L)) s0 s,
  mk_grid (N := B64 L) (nofZ 8) (nofZ 8) (nofZ 1) 0 = Ok g /\ mk_field g "out" = Ok s0 /\ run [Update; Update; Update] s0 = Fine s /\
  (forall i j, 1 <= i < 7 -> 1 <= j < 7 -> tval (fEz (ph_F (f_ph s))) i j = B754_nan) /\ ~ all_dark (N := B64 L) zero64 (f_ph s).
Proof. exact dark_fails. Qed.

Print Assumptions C18_double_partial.
Print Assumptions C18_double_refuted.
