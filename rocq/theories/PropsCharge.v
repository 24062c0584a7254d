(** C76: the magnetic field has no sources: away from magnetic sources, from the rim of the incident
    wave's box and from the absorbing layers no magnetic charge ever appears, whatever the calls and
    whether or not they raise; and a charge once put there stays. *)
From Coq Require Import ZArith Reals List String Bool.
From Verif Require Import Scalar Base VecM GridM GeometryM MaterialM PmlM DftM TfsfM PolarM InterpM H5M ClockM
  MonitorM FieldM SpecGrid OutFacts PhysFacts WfFacts ReachFacts SpecStep StepFacts SpecSource SpecRim SpecMedium SpecMaterial ExampleMedia SpecCharge ChargeFacts ChargeCase.
Import ListNotations.
Local Open Scope R_scope.
#[local] Existing Instance RNum.

Theorem C76_no_magnetic_charge : forall g name s0 l s i j,
  apart g -> mk_field g name = Ok s0 -> run_catch l s0 = Fine s -> inner_square g i j ->
  Forall (spares g i j) l -> charge (f_ph s) i j = 0.
Proof. exact no_charge. Qed.
Print Assumptions C76_no_magnetic_charge.

Theorem C76_charge_kept : forall g s s' i j,
  apart g -> reachable g s -> 0 < g_dt g -> update s = Fine s' -> inner_square g i j ->
  silent_at (ph_t (f_ph s) + g_dt g) (f_ph s) i j -> charge (f_ph s') i j = charge (f_ph s) i j.
Proof. exact charge_kept. Qed.
Print Assumptions C76_charge_kept.

(** the field of an electric flash, with the magnetic cells of the square at work *)
Example C76_case : exists (g : grid) s0 s, mk_grid 8 8 1 1 = Ok g /\ apart g /\ mk_field g "out" = Ok s0 /\
  run_catch [AddSource (flash (/ 2)); Update] s0 = Fine s /\ inner_square g 3 3 /\ Forall (spares g 3 3) [AddSource (flash (/ 2)); Update] /\
  Hx_at (f_ph s) 3 3 = / 2 /\ Hy_at (f_ph s) 3 3 = - / 2.
Proof. exact flash_charge. Qed.

(** a magnetic source leaves a charge, which then meets the hypotheses of the second theorem *)
Example C76_magnet_case : exists (g : grid) s0 s s1 s2, mk_grid 8 8 1 1 = Ok g /\ apart g /\ mk_field g "out" = Ok s0 /\ 0 < g_dt g /\
  run [AddSource magnet] s0 = Fine s /\ update s = Fine s1 /\ update s1 = Fine s2 /\ reachable g s1 /\ inner_square g 3 3 /\
  silent_at (ph_t (f_ph s1) + g_dt g) (f_ph s1) 3 3 /\ charge (f_ph s1) 3 3 = - 1.
Proof. exact magnet_charge. Qed.
