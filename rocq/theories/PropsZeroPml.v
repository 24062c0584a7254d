(** C23: a PML of zero thickness. *)
From Coq Require Import ZArith List.
From Flocq Require Import IEEE754.BinarySingleNaN.
From Verif Require Import Float Scalar Base VecM GridM GeometryM MaterialM PmlM DftM TfsfM PolarM InterpM H5M ClockM MonitorM FieldM ReachFacts SpecZeroPml ZeroPmlFacts.
Import ListNotations.
Local Open Scope Z_scope.

(** C23 is false.  In double arithmetic, with any exp and pow that follow C's rules for NaN, a grid
    built with pml_thickness 0 has NaN among the PML coefficients the loops use, and n calls of
    update() from any reachable state turn every interior cell at most n cells from the edge into
    NaN, in all three fields. *)
Theorem C23_zero_thickness_refuted : forall (L : libm), nan_libm L -> forall Lx Ly rs (g : @grid (B64 L)) s n s' i j,
  mk_grid Lx Ly rs 0 = Ok g -> 3 < g_Nx g -> 3 < g_Ny g -> reachable g s ->
  run (repeat Update n) s = Fine s' -> rim (g_Nx g) (g_Ny g) (Z.of_nat n) i j ->
  (aval (be_x (p_coef (ph_pml (f_ph s)))) 1 = B754_nan /\ aval (be_y (p_coef (ph_pml (f_ph s)))) 1 = B754_nan) /\
  tval (fEz (ph_F (f_ph s'))) i j = B754_nan /\ tval (fHx (ph_F (f_ph s'))) i j = B754_nan /\
  tval (fHy (ph_F (f_ph s'))) i j = B754_nan.
Proof. exact zero_pml. Qed.
Print Assumptions C23_zero_thickness_refuted.

(** an 8 by 8 grid: after three calls the whole interior is within reach *)
Example C23_case : forall L : libm, exists (g : @grid (B64 L)) s s', mk_grid (N := B64 L) (nofZ 8) (nofZ 8) (nofZ 1) 0 = Ok g /\
  g_Nx g = 8 /\ g_Ny g = 8 /\ reachable g s /\ run [Update; Update; Update] s = Fine s'.
Proof. exact zero_pml_case. Qed.
Example C23_reach : forall i j, 1 <= i < 7 -> 1 <= j < 7 -> rim 8 8 (Z.of_nat 3) i j.
Proof. exact reach3. Qed.
(** library functions that follow those rules exist *)
Example C23_libm : nan_libm (Libm (fun x => x) (fun x => x) (fun x => x) (fun x _ => x)).
Proof. exact id_libm. Qed.
