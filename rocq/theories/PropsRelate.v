(** Properties that relate runs to one another: C16 (any arithmetic), C17, C24 (exact reals). *)
From Coq Require Import ZArith Reals List Bool String Lia Lra.
From Verif Require Import Scalar Base BaseFacts VecM GridM GeometryM MaterialM PmlM DftM TfsfM PolarM
  InterpM H5M ClockM MonitorM FieldM SpecGrid GridFacts OutFacts PhysFacts
  WfFacts ReachFacts StepFacts SpecSource SourceFacts ExampleSrc MemoryFacts
  SpecCone ConeFacts ConeRun SpecSum SumStep SumRun SpecFlip FlipRun.
Import ListNotations.
Local Open Scope Z_scope.

(** C16: two simulations on the same grid and clock that agree on everything within n cells of a
    cell (fields, coefficients, PML memories, dispersive currents, sources) agree on all of it at
    the cell after n updates. Equality is equality of the numbers the arithmetic works with, so
    with binary64 it is bit for bit. *)
Theorem C16_finite_speed : forall (N : Num) n s1 s2 s1' s2' i j,
  let g := ph_grid (f_ph s1) in apart g -> wf_phys (f_ph s1) -> wf_phys (f_ph s2) -> same_frame (f_ph s1) (f_ph s2) ->
  run (repeat Update n) s1 = Fine s1' -> run (repeat Update n) s2 = Fine s2' ->
  0 <= i < g_Nx g -> 0 <= j < g_Ny g -> agree_near (f_ph s1) (f_ph s2) (Z.of_nat n) i j -> agree_cell (f_ph s1') (f_ph s2') i j.
Proof. exact @cone. Qed.

#[local] Existing Instance RNum.
(** two simulations that differ by a line of sources four rows away *)
Example C16_case : exists (g : grid) s1 s2 s1' s2', mk_grid 8%R 8%R 1%R 1 = Ok g /\ apart g /\
  reachable g s1 /\ reachable g s2 /\ ph_srcs (f_ph s1) = [lamp; wire] /\ ph_srcs (f_ph s2) = [lamp] /\
  wf_phys (f_ph s1) /\ wf_phys (f_ph s2) /\ same_frame (f_ph s1) (f_ph s2) /\
  run (repeat Update 3) s1 = Fine s1' /\ run (repeat Update 3) s2 = Fine s2' /\
  agree_near (f_ph s1) (f_ph s2) 3 6 6.
Proof. exact cone_case. Qed.

(** C17: a field with any objects and no sources, run for n steps with the sources S1, with S2 and
    with both: every field, memory and current of the third run is the sum of those of the first
    two. *)
Theorem C17_superposition : forall g s S1 S2 n s1 s2 s3, apart g -> reachable g s ->
  ph_srcs (f_ph s) = [] -> ph_tfsf (f_ph s) = None ->
  run (map AddSource S1 ++ repeat Update n) s = Fine s1 ->
  run (map AddSource S2 ++ repeat Update n) s = Fine s2 ->
  run (map AddSource (S1 ++ S2) ++ repeat Update n) s = Fine s3 ->
  sum_state (f_ph s1) (f_ph s2) (f_ph s3).
Proof. exact superposition. Qed.
(** the same from arbitrary initial fields, and with a TFSF plane wave among the sources of the
    first run *)
Theorem C17_superposition_of_states : forall n s1 s2 s3 s1' s2' s3',
  apart (ph_grid (f_ph s3)) -> wf_phys (f_ph s1) -> wf_phys (f_ph s2) -> wf_phys (f_ph s3) ->
  sum_state (f_ph s1) (f_ph s2) (f_ph s3) ->
  run (repeat Update n) s1 = Fine s1' -> run (repeat Update n) s2 = Fine s2' -> run (repeat Update n) s3 = Fine s3' ->
  sum_state (f_ph s1') (f_ph s2') (f_ph s3').
Proof. exact superposition_states. Qed.
Example C17_case n : (n < 1000)%nat -> exists (g : grid) s s1 s2 s3, mk_grid 8%R 8%R 1%R 1 = Ok g /\ apart g /\ reachable g s /\
  ph_srcs (f_ph s) = [] /\ ph_tfsf (f_ph s) = None /\ ph_step (f_ph s) = 0 /\
  run (map AddSource [lamp] ++ repeat Update n) s = Fine s1 /\
  run (map AddSource [wire] ++ repeat Update n) s = Fine s2 /\
  run (map AddSource ([lamp] ++ [wire]) ++ repeat Update n) s = Fine s3.
Proof. exact (sum_case n). Qed.
(** the states of that example after 5 steps meet the hypotheses of the second theorem *)
Example C17_case_states : exists (g : grid) s1 s2 s3, apart (ph_grid (f_ph s3)) /\ ph_grid (f_ph s3) = g /\
  wf_phys (f_ph s1) /\ wf_phys (f_ph s2) /\ wf_phys (f_ph s3) /\ ph_srcs (f_ph s3) <> [] /\ ph_step (f_ph s3) = 5 /\
  sum_state (f_ph s1) (f_ph s2) (f_ph s3).
Proof. exact sum_states_case. Qed.

(** C24: simulations on an n by m and an m by n grid, the second one the transpose of the first
    (Ez kept; Hx and Hy exchanged with a sign; coefficients, memories, currents and sources
    accordingly), remain so under any number of updates. *)
Theorem C24_axes_exchange : forall g g' s1 s2 n s1' s2', apart g -> reachable g s1 -> apart g' -> reachable g' s2 ->
  flip_state (f_ph s1) (f_ph s2) ->
  run (repeat Update n) s1 = Fine s1' -> run (repeat Update n) s2 = Fine s2' -> flip_state (f_ph s1') (f_ph s2').
Proof. exact flip. Qed.
Example C24_case n : (n < 1000)%nat -> exists (g g' : grid) s1 s2 s1' s2', mk_grid 8%R 10%R 1%R 1 = Ok g /\ mk_grid 10%R 8%R 1%R 1 = Ok g' /\
  apart g /\ apart g' /\ reachable g s1 /\ reachable g' s2 /\ ph_srcs (f_ph s1) = [lamp34] /\ ph_srcs (f_ph s2) = [lamp43] /\
  flip_state (f_ph s1) (f_ph s2) /\ run (repeat Update n) s1 = Fine s1' /\ run (repeat Update n) s2 = Fine s2'.
Proof. exact (flip_case n). Qed.

Print Assumptions C16_finite_speed.
Print Assumptions C17_superposition.
Print Assumptions C17_superposition_of_states.
Print Assumptions C24_axes_exchange.
