(** The time step: C15. *)
From Coq Require Import ZArith Reals List Bool String Lia Lra.
From Verif Require Import Scalar Base BaseFacts VecM GridM GeometryM MaterialM PmlM DftM TfsfM PolarM
  InterpM H5M ClockM MonitorM FieldM SpecGrid GridFacts OutFacts PhysFacts
  WfFacts ReachFacts SafetyFacts SpecSafety SafeFacts SpecStep StepFacts EngineFacts YeeFacts
  TextbookFacts ExampleFacts ExampleSrc.
Import ListNotations.
Local Open Scope Z_scope.

(** C15: one update() is one textbook step (SpecStep.yee_step): every interior cell of Ez, Hx
    and Hy gets the Yee formula plus the corrections of its PML layers, every memory cell the
    recursive convolution.  Any arithmetic, any contents of the fields, memories and
    coefficients ([wf_phys]: the arrays have the sizes the constructor gives them);
    [apart]: the layers of opposite sides do not overlap. *)
Theorem C15_update_is_yee_cpml : forall (N : Num) s s',
  apart (ph_grid (f_ph s)) -> wf_phys (f_ph s) -> plain (f_ph s) -> update s = Fine s' ->
  let g := ph_grid (f_ph s) in
  let u := yee_step (g_Nx g) (g_Ny g) (g_pml g) (g_dx g) (med (f_ph s)) (e_of (f_ph s), h_of (f_ph s)) in
  same_e (e_of (f_ph s')) (fst u) /\ same_h (h_of (f_ph s')) (snd u).
Proof. exact @update_textbook. Qed.
Print Assumptions C15_update_is_yee_cpml.
Theorem C15_boundary_unchanged : forall (N : Num) s s',
  apart (ph_grid (f_ph s)) -> wf_phys (f_ph s) -> plain (f_ph s) -> update s = Fine s' ->
  forall i j, i < 1 \/ g_Nx (ph_grid (f_ph s)) - 2 < i \/ j < 1 \/ g_Ny (ph_grid (f_ph s)) - 2 < j ->
  tval (fEz (ph_F (f_ph s'))) i j = tval (fEz (ph_F (f_ph s))) i j /\
  tval (fHx (ph_F (f_ph s'))) i j = tval (fHx (ph_F (f_ph s))) i j /\
  tval (fHy (ph_F (f_ph s'))) i j = tval (fHy (ph_F (f_ph s))) i j.
Proof. exact @update_edges. Qed.
Print Assumptions C15_boundary_unchanged.
(** an 8 by 8 grid filled with nonzero fields *)
Example C15_case : let N := RNum in exists (g : grid) s s', mk_grid 8%R 8%R 1%R 1 = Ok g /\ apart g /\ ph_grid (f_ph s) = g /\
  wf_phys (f_ph s) /\ plain (f_ph s) /\ update s = Fine s' /\ tval (fEz (ph_F (f_ph s))) 3 3 = 9%R /\
  tval (fHx (ph_F (f_ph s))) 2 3 = 5%R /\ tval (fHy (ph_F (f_ph s))) 4 3 = 1%R.
Proof. exact prod_run. Qed.

(** with sources, from any reachable state: the electric half-step, then the sources acting on
    that field at the new time, then the magnetic half-step *)
Theorem C15_update_with_sources : forall (N : Num) g s s', apart g -> reachable g s ->
  ph_debye (f_ph s) = [] -> ph_drude (f_ph s) = [] -> ph_lorentz (f_ph s) = [] -> ph_tfsf (f_ph s) = None ->
  update s = Fine s' ->
  exists a b,
    same_e (e_of a) (next_e (g_Nx g) (g_Ny g) (g_pml g) (g_dx g) (med (f_ph s))
                            (hX (h_of (f_ph s))) (hY (h_of (f_ph s))) (e_of (f_ph s))) /\
    h_of a = h_of (f_ph s) /\
    ph_srcs a = ph_srcs (f_ph s) /\ ph_t a = (ph_t (f_ph s) + g_dt g)%num /\ ph_grid a = g /\ wf_phys a /\
    step_sources a = Fine b /\ ph_srcs (f_ph s') = ph_srcs b /\
    same_e (e_of (f_ph s')) (e_of b) /\
    same_h (h_of (f_ph s')) (next_h (g_Nx g) (g_Ny g) (g_pml g) (g_dx g) (med (f_ph s)) (eE (e_of b)) (h_of b)).
Proof. exact @reachable_with_sources. Qed.
Print Assumptions C15_update_with_sources.
Example C15_sources_case : let N := RNum in exists (g : grid) s s', apart g /\ reachable g s /\
  ph_debye (f_ph s) = [] /\ ph_drude (f_ph s) = [] /\ ph_lorentz (f_ph s) = [] /\ ph_tfsf (f_ph s) = None /\
  ph_srcs (f_ph s) = [lamp; wire] /\ update s = Fine s'.
Proof. exact source_update. Qed.

(** the recursion coefficients and stretched cell sizes of any reachable state are those of the
    convolutional PML *)
Theorem C15_coefficients : forall (N : Num) g s, apart g -> reachable g s -> cpml_coefs g (med (f_ph s)).
Proof. exact @reachable_coefs. Qed.
Print Assumptions C15_coefficients.
