(** Rounding errors of the time step in IEEE double arithmetic: C88. *)
From Coq Require Import ZArith Reals List String Bool.
From Flocq Require Import Core.Core IEEE754.BinarySingleNaN.
From Verif Require Import Scalar Base VecM GridM GeometryM MaterialM PmlM DftM TfsfM PolarM InterpM H5M ClockM
  MonitorM FieldM WfFacts ReachFacts SpecStep StepFacts YeeFacts FullStep Float SpecDark DarkCase SpecRound RoundRun RoundCase.
Import ListNotations.
Local Open Scope Z_scope.

(** after any number of updates every cell is finite and differs from that of exact steps with the same
    coefficients by at most (1 + 2^-53)^(13 k) - 1 times the magnitude of the terms added up there, as
    long as those magnitudes do not overflow *)
Theorem C88_updates : forall (L : libm) a e k (s s' : @field (B64 L)), let g := ph_grid (f_ph s) in
  let u := (e_of (f_ph s), h_of (f_ph s)) in let md := med (f_ph s) in
  0 <= a -> 0 <= e -> e + (6 * a + 21) <= 1000 -> Z.of_nat (13 * k) <= 2 ^ 53 ->
  apart g -> wf_phys (f_ph s) -> plain (f_ph s) ->
  moderate_med a (g_Nx g) (g_Ny g) (g_pml g) (g_dx g) md -> every_cell (fun x : @T (B64 L) => is_finite (x : f64) = true) u ->
  (forall i, (i < k)%nat -> every_cell (fun x : @T Magnitude => ((x : R) <= bpow radix2 e)%R)
     (steps (g_Nx g) (g_Ny g) (g_pml g) (size L (g_dx g)) (image_med (size L) md) i (image (size L) u))) ->
  run (repeat Update k) s = Fine s' ->
  within_cells ((1 + unit_error) ^ (13 * k) - 1)%R (e_of (f_ph s'), h_of (f_ph s'))
    (steps (g_Nx g) (g_Ny g) (g_pml g) (value L (g_dx g)) (image_med (value L) md) k (image (value L) u))
    (steps (g_Nx g) (g_Ny g) (g_pml g) (size L (g_dx g)) (image_med (size L) md) k (image (size L) u)).
Proof. exact updates_within. Qed.
Print Assumptions C88_updates.

(** a number of updates for which the magnitudes cannot overflow, whatever they are *)
Theorem C88_short : forall (L : libm) a e k (s s' : @field (B64 L)), let g := ph_grid (f_ph s) in
  let u := (e_of (f_ph s), h_of (f_ph s)) in let md := med (f_ph s) in
  0 <= a -> 0 <= e -> e + Z.of_nat k * (6 * a + 21) <= 1000 ->
  apart g -> wf_phys (f_ph s) -> plain (f_ph s) ->
  moderate_med a (g_Nx g) (g_Ny g) (g_pml g) (g_dx g) md ->
  every_cell (fun x : @T (B64 L) => is_finite (x : f64) = true /\ (Rabs (B2R (x : f64)) <= bpow radix2 e)%R) u ->
  run (repeat Update k) s = Fine s' ->
  within_cells ((1 + unit_error) ^ (13 * k) - 1)%R (e_of (f_ph s'), h_of (f_ph s'))
    (steps (g_Nx g) (g_Ny g) (g_pml g) (value L (g_dx g)) (image_med (value L) md) k (image (value L) u))
    (steps (g_Nx g) (g_Ny g) (g_pml g) (size L (g_dx g)) (image_med (size L) md) k (image (size L) u)).
Proof. exact short_within. Qed.
Print Assumptions C88_short.

(** an 8 by 8 grid with two absorbing cells at every edge and one cell of Ez at 1 meets the hypotheses
    for any number of updates up to 30 *)
#[local] Instance toyNum : Num := B64 toy.
Example C88_case : exists (g : grid) (s : field), mk_grid (nofZ 8) (nofZ 8) (nofZ 1) 2 = Ok g /\ ph_grid (f_ph s) = g /\
  tval (fEz (ph_F (f_ph s))) 4 4 = nofZ 1 /\ apart g /\ wf_phys (f_ph s) /\ plain (f_ph s) /\
  @moderate_med toy 2 (g_Nx g) (g_Ny g) (g_pml g) (g_dx g) (med (f_ph s)) /\
  every_cell (fun x : @T (B64 toy) => is_finite (x : f64) = true /\ (Rabs (B2R (x : f64)) <= bpow radix2 0)%R) (e_of (f_ph s), h_of (f_ph s)) /\
  forall k, (k <= 30)%nat -> 0 + Z.of_nat k * (6 * 2 + 21) <= 1000 /\ exists s', run (repeat Update k) s = Fine s'.
Proof. exact lit_case. Qed.
