(** Rounding errors of whole programs in IEEE double arithmetic: C88. *)
From Coq Require Import ZArith Reals List String Bool.
From Flocq Require Import Core.Core IEEE754.BinarySingleNaN.
From Verif Require Import Scalar Base VecM GridM GeometryM MaterialM PmlM DftM TfsfM PolarM InterpM H5M ClockM
  MonitorM FieldM WfFacts ReachFacts SpecStep StepFacts YeeFacts FullStep SpecSource Float SpecRound RoundRun
  SpecLoose SpecDriven DrivenCase SpecWhole WholeFacts WholeCase.
Import ListNotations.
Local Open Scope Z_scope.

(** from the constructor on: after any calls that set up a scene of simple materials (eps at least 1,
    conductivity not negative) and sources, k updates stay within (1 + 2^-53)^((13 + q) k) - 1 times the
    magnitudes of as many exact steps that start from zero *)
Theorem C88_program : forall (L : libm), loose_libm L -> forall a (Lx Ly rs : f64) pml (g : @grid (B64 L)),
  0 <= a <= 300 -> resolution_within a rs -> 1 <= pml -> mk_grid (N := B64 L) Lx Ly rs pml = Ok g -> apart g ->
  forall name s0 l s s' Ls k e0 e, let p := f_ph s in let q := List.length (ph_srcs p) in
  let dr := drive (ph_srcs p) Ls (0%num : @T (B64 L)) (g_dt g) in
  mk_field g name = Ok s0 -> Forall (@scene_cmd L) l -> run l s0 = Fine s -> run (repeat Update k) s = Fine s' ->
  Forall2 (fun r c => src_cells g (sr_kind r) c) (ph_srcs p) Ls ->
  (forall i, (i < k)%nat -> Forall (fun r : @source (B64 L) => moderate e0 (waveform (tp_shape (sr_tp r)) (moment (0%num : @T (B64 L)) (g_dt g) (S i)))) (ph_srcs p)) ->
  0 <= e0 <= e -> e + (6 * a + 21 + 2 * Z.of_nat q) <= 1000 -> Z.of_nat ((13 + q) * k) <= 2 ^ 53 ->
  (forall i, (i < k)%nat -> every_cell (fun x : @T Magnitude => ((x : R) <= bpow radix2 e)%R)
     (driven_steps (g_Nx g) (g_Ny g) (g_pml g) (size L (g_dx g)) (image_med (size L) (med p)) (image_drive (size L) dr) i darkness)) ->
  within_cells ((1 + unit_error) ^ ((13 + q) * k) - 1)%R (e_of (f_ph s'), h_of (f_ph s'))
    (driven_steps (g_Nx g) (g_Ny g) (g_pml g) (value L (g_dx g)) (image_med (value L) (med p)) (image_drive (value L) dr) k darkness)
    (driven_steps (g_Nx g) (g_Ny g) (g_pml g) (size L (g_dx g)) (image_med (size L) (med p)) (image_drive (size L) dr) k darkness).
Proof. exact program_within. Qed.
Print Assumptions C88_program.

(** the same without a hypothesis on the magnitudes, for a number of updates after which they cannot overflow *)
Theorem C88_program_short : forall (L : libm), loose_libm L -> forall a (Lx Ly rs : f64) pml (g : @grid (B64 L)),
  0 <= a <= 300 -> resolution_within a rs -> 1 <= pml -> mk_grid (N := B64 L) Lx Ly rs pml = Ok g -> apart g ->
  forall name s0 l s s' Ls k e0, let p := f_ph s in let q := List.length (ph_srcs p) in
  let dr := drive (ph_srcs p) Ls (0%num : @T (B64 L)) (g_dt g) in
  mk_field g name = Ok s0 -> Forall (@scene_cmd L) l -> run l s0 = Fine s -> run (repeat Update k) s = Fine s' ->
  Forall2 (fun r c => src_cells g (sr_kind r) c) (ph_srcs p) Ls ->
  (forall i, (i < k)%nat -> Forall (fun r : @source (B64 L) => moderate e0 (waveform (tp_shape (sr_tp r)) (moment (0%num : @T (B64 L)) (g_dt g) (S i)))) (ph_srcs p)) ->
  0 <= e0 -> e0 + Z.of_nat k * (6 * a + 21 + 2 * Z.of_nat q) <= 1000 ->
  within_cells ((1 + unit_error) ^ ((13 + q) * k) - 1)%R (e_of (f_ph s'), h_of (f_ph s'))
    (driven_steps (g_Nx g) (g_Ny g) (g_pml g) (value L (g_dx g)) (image_med (value L) (med p)) (image_drive (value L) dr) k darkness)
    (driven_steps (g_Nx g) (g_Ny g) (g_pml g) (size L (g_dx g)) (image_med (size L) (med p)) (image_drive (size L) dr) k darkness).
Proof. exact program_short. Qed.
Print Assumptions C88_program_short.

(** an 8 by 8 grid with a block of conducting glass around a continuous point source, up to 40 updates *)
#[local] Existing Instance DrivenCase.toneNum.
Example C88_program_case : exists (g : grid) (s0 s : field), loose_libm tone /\ resolution_within 0 (f64_ofZ 1) /\ mk_grid (nofZ 8) (nofZ 8) (nofZ 1) 2 = Ok g /\ apart g /\
  mk_field g "out" = Ok s0 /\ Forall (@scene_cmd tone) (shop ++ [AddSource lamp]) /\ run (shop ++ [AddSource lamp]) s0 = Fine s /\
  ph_srcs (f_ph s) = [lamp] /\ Forall2 (fun r l => src_cells g (sr_kind r) l) (ph_srcs (f_ph s)) [[(4, 4)]] /\
  (forall i, Forall (fun r : @source (B64 tone) => moderate 0 (waveform (tp_shape (sr_tp r)) (moment (0%num : @T (B64 tone)) (g_dt g) (S i)))) (ph_srcs (f_ph s))) /\
  forall k, (k <= 40)%nat -> 0 + Z.of_nat k * (6 * 0 + 21 + 2 * 1) <= 1000 /\ exists s', run (repeat Update k) s = Fine s'.
Proof. exact shop_case. Qed.
