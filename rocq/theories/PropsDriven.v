(** Rounding errors of the time step with sources in IEEE double arithmetic: C88. *)
From Coq Require Import ZArith Reals List String Bool.
From Flocq Require Import Core.Core IEEE754.BinarySingleNaN.
From Verif Require Import Scalar Base VecM GridM GeometryM MaterialM PmlM DftM TfsfM PolarM InterpM H5M ClockM
  MonitorM FieldM WfFacts ReachFacts SpecStep StepFacts YeeFacts FullStep SpecSource Float SpecDark DarkCase SpecRound RoundRun
  SpecDriven DrivenFacts DrivenCase.
Import ListNotations.
Local Open Scope Z_scope.

(** with any point and line sources: after any number of updates every cell differs from that of exact steps,
    with the same coefficients and the same source values, by at most (1 + 2^-53)^((13 + q) k) - 1 times the
    magnitude of the terms added up there, q being the number of sources *)
Theorem C88_driven : forall (L : libm) a e0 e k (s s' : @field (B64 L)) Ls, let p := f_ph s in let g := ph_grid p in
  let u := (e_of p, h_of p) in let md := med p in let q := List.length (ph_srcs p) in let dr := drive (ph_srcs p) Ls (ph_t p) (g_dt g) in
  0 <= a -> 0 <= e0 <= e -> e + (6 * a + 21 + 2 * Z.of_nat q) <= 1000 -> Z.of_nat ((13 + q) * k) <= 2 ^ 53 ->
  apart g -> wf_phys p -> only_sources p -> Forall2 (fun r l => src_cells g (sr_kind r) l) (ph_srcs p) Ls ->
  moderate_med a (g_Nx g) (g_Ny g) (g_pml g) (g_dx g) md ->
  (forall i, (i < k)%nat -> Forall (fun r : @source (B64 L) => moderate e0 (waveform (tp_shape (sr_tp r)) (moment (ph_t p) (g_dt g) (S i)))) (ph_srcs p)) ->
  every_cell (fun x : @T (B64 L) => is_finite (x : f64) = true) u ->
  (forall i, (i < k)%nat -> every_cell (fun x : @T Magnitude => ((x : R) <= bpow radix2 e)%R)
     (driven_steps (g_Nx g) (g_Ny g) (g_pml g) (size L (g_dx g)) (image_med (size L) md) (image_drive (size L) dr) i (image (size L) u))) ->
  run (repeat Update k) s = Fine s' ->
  within_cells ((1 + unit_error) ^ ((13 + q) * k) - 1)%R (e_of (f_ph s'), h_of (f_ph s'))
    (driven_steps (g_Nx g) (g_Ny g) (g_pml g) (value L (g_dx g)) (image_med (value L) md) (image_drive (value L) dr) k (image (value L) u))
    (driven_steps (g_Nx g) (g_Ny g) (g_pml g) (size L (g_dx g)) (image_med (size L) md) (image_drive (size L) dr) k (image (size L) u)).
Proof. exact driven_within. Qed.
Print Assumptions C88_driven.

(** a number of updates for which the magnitudes cannot overflow *)
Theorem C88_driven_short : forall (L : libm) a e0 e k (s s' : @field (B64 L)) Ls, let p := f_ph s in let g := ph_grid p in
  let u := (e_of p, h_of p) in let md := med p in let q := List.length (ph_srcs p) in let dr := drive (ph_srcs p) Ls (ph_t p) (g_dt g) in
  0 <= a -> 0 <= e0 <= e -> e + Z.of_nat k * (6 * a + 21 + 2 * Z.of_nat q) <= 1000 ->
  apart g -> wf_phys p -> only_sources p -> Forall2 (fun r l => src_cells g (sr_kind r) l) (ph_srcs p) Ls ->
  moderate_med a (g_Nx g) (g_Ny g) (g_pml g) (g_dx g) md ->
  (forall i, (i < k)%nat -> Forall (fun r : @source (B64 L) => moderate e0 (waveform (tp_shape (sr_tp r)) (moment (ph_t p) (g_dt g) (S i)))) (ph_srcs p)) ->
  every_cell (fun x : @T (B64 L) => is_finite (x : f64) = true /\ (Rabs (B2R (x : f64)) <= bpow radix2 e)%R) u ->
  run (repeat Update k) s = Fine s' ->
  within_cells ((1 + unit_error) ^ ((13 + q) * k) - 1)%R (e_of (f_ph s'), h_of (f_ph s'))
    (driven_steps (g_Nx g) (g_Ny g) (g_pml g) (value L (g_dx g)) (image_med (value L) md) (image_drive (value L) dr) k (image (value L) u))
    (driven_steps (g_Nx g) (g_Ny g) (g_pml g) (size L (g_dx g)) (image_med (size L) md) (image_drive (size L) dr) k (image (size L) u)).
Proof. exact driven_short. Qed.
Print Assumptions C88_driven_short.

(** a continuous point source in an empty 8 by 8 grid, for any number of updates up to 25 *)
#[local] Instance toneNum : Num := B64 tone.
Example C88_driven_case : exists (g : grid) (s0 s : field), mk_grid (nofZ 8) (nofZ 8) (nofZ 1) 2 = Ok g /\ mk_field g "out" = Ok s0 /\
  run [AddSource lamp] s0 = Fine s /\ ph_grid (f_ph s) = g /\ apart g /\ wf_phys (f_ph s) /\ only_sources (f_ph s) /\
  ph_srcs (f_ph s) = [lamp] /\ Forall2 (fun r l => src_cells g (sr_kind r) l) (ph_srcs (f_ph s)) [[(4, 4)]] /\
  @moderate_med tone 2 (g_Nx g) (g_Ny g) (g_pml g) (g_dx g) (med (f_ph s)) /\
  (forall i, Forall (fun r : @source (B64 tone) => moderate 0 (waveform (tp_shape (sr_tp r)) (moment (ph_t (f_ph s)) (g_dt g) (S i)))) (ph_srcs (f_ph s))) /\
  every_cell (fun x : @T (B64 tone) => is_finite (x : f64) = true /\ (Rabs (B2R (x : f64)) <= bpow radix2 0)%R) (e_of (f_ph s), h_of (f_ph s)) /\
  forall k, (k <= 25)%nat -> 0 + Z.of_nat k * (6 * 2 + 21 + 2 * 1) <= 1000 /\ exists s', run (repeat Update k) s = Fine s'.
Proof. exact lamp_case. Qed.
