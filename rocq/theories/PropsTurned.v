(** Total-field boxes whose corners are the other way round: C19. *)
From Coq Require Import ZArith Reals List String Bool.
From Verif Require Import Scalar Base VecM GridM GeometryM MaterialM PmlM DftM TfsfM PolarM InterpM H5M ClockM
  MonitorM FieldM SpecWave SpecTfsf TfsfRun SpecTurned TurnedFacts.
Import ListNotations.
Local Open Scope Z_scope.
#[local] Existing Instance RNum.

(** with the upper right corner first the loops of updateD and updateH (src/tfsf.cpp:83-105) are empty: whatever
    the waveform, the objects and the calls, caught exceptions included, the field stays zero *)
Theorem C19_turned_partial : forall (g : grid) name s0 l s,
  mk_field g name = Ok s0 -> Forall (turned_cmd g) l -> run_catch l s0 = Fine s -> dark (f_ph s).
Proof. exact turned_dark. Qed.
Print Assumptions C19_turned_partial.

(** so such a box does not hold the incident wave, although its cells are clear of the PML *)
Theorem C19_turned_refuted : exists (g : grid) s0 s2 s,
  mk_grid 8%R 8%R 1%R 1 = Ok g /\ mk_field g "out" = Ok s0 /\ exec (SetTfsf turned_pane sun) s0 = Fine s2 /\ run (repeat Update 3) s2 = Fine s /\
  to_grid g (v_a turned_pane) = Ok (4, 4) /\ to_grid g (v_b turned_pane) = Ok (3, 3) /\ clear_of_pml g 3 4 3 4 /\
  ~ lit_box 3 4 3 4 (incident (shape_val (tp_shape sun)) (4 - 3 + 5) (g_dt g) 3)
    (tval (fEz (ph_F (f_ph s)))) (tval (fHx (ph_F (f_ph s)))) (tval (fHy (ph_F (f_ph s)))).
Proof. exact turned_refuted. Qed.
Print Assumptions C19_turned_refuted.

Example C19_turned_case : forall n, (n < 1000)%nat -> exists (g : grid) s0 s2 s,
  mk_grid 8%R 8%R 1%R 1 = Ok g /\ mk_field g "out" = Ok s0 /\ exec (SetTfsf turned_pane sun) s0 = Fine s2 /\ run (repeat Update n) s2 = Fine s /\
  to_grid g (v_a turned_pane) = Ok (4, 4) /\ to_grid g (v_b turned_pane) = Ok (3, 3) /\ clear_of_pml g 3 4 3 4 /\ g_dt g = (/ 2)%R /\
  Forall (turned_cmd g) (SetTfsf turned_pane sun :: repeat Update n) /\ run_catch (SetTfsf turned_pane sun :: repeat Update n) s0 = Fine s.
Proof. exact turned_case. Qed.
