(** C19: a total-field region holds one plane wave and lets nothing out. *)
From Coq Require Import ZArith Reals List String Bool.
From Verif Require Import Scalar Base VecM GridM GeometryM MaterialM PmlM DftM TfsfM PolarM InterpM H5M ClockM
  MonitorM FieldM SpecTfsf TfsfFacts TfsfRun.
Import ListNotations.
Local Open Scope Z_scope.
#[local] Existing Instance RNum.

(** true part of C19: the corners of the box in order, lower left first *)
Theorem C19_one_plane_wave_partial : forall Lx Ly rs pml g name s0 l1 s1 v tp s2 l2 s ia ja ib jb,
  (0 < Lx)%R -> (0 < Ly)%R -> (0 < rs)%R -> 0 <= pml -> mk_grid Lx Ly rs pml = Ok g ->
  mk_field g name = Ok s0 -> forallb watching l1 = true -> run l1 s0 = Fine s1 ->
  exec (SetTfsf v tp) s1 = Fine s2 -> forallb watching l2 = true -> run l2 s2 = Fine s ->
  to_grid g (v_a v) = Ok (ia, ja) -> to_grid g (v_b v) = Ok (ib, jb) -> clear_of_pml g ia ib ja jb ->
  lit_box ia ib ja jb (incident (shape_val (tp_shape tp)) (jb - ja + 5) (g_dt g) (updates l2))
    (tval (fEz (ph_F (f_ph s)))) (tval (fHx (ph_F (f_ph s)))) (tval (fHy (ph_F (f_ph s)))).
Proof. exact tfsf_one_wave. Qed.
Print Assumptions C19_one_plane_wave_partial.

(** a 2x2 box in the middle of an 8x8 grid; the wave has amplitude 1/16 on its first row after three steps *)
Example C19_case : forall n, (n < 1000)%nat -> exists (g : grid) s0 s2 s,
  mk_grid 8%R 8%R 1%R 1 = Ok g /\ mk_field g "out" = Ok s0 /\ run [] s0 = Fine s0 /\
  exec (SetTfsf pane sun) s0 = Fine s2 /\ run (repeat Update n) s2 = Fine s /\
  to_grid g (v_a pane) = Ok (3, 3) /\ to_grid g (v_b pane) = Ok (4, 4) /\ clear_of_pml g 3 4 3 4 /\
  forallb watching (repeat Update n) = true /\ updates (repeat Update n) = n /\
  (n = 3%nat -> tval (fEz (ph_F (f_ph s))) 3 3 = (/ 16)%R /\ tval (fEz (ph_F (f_ph s))) 4 3 = (/ 16)%R /\ tval (fEz (ph_F (f_ph s))) 3 2 = 0%R).
Proof. exact tfsf_case. Qed.
