(** Waveforms and the spectra of what drives a run: C65, C66. *)
From Coq Require Import ZArith Reals String List Bool.
From Verif Require Import Scalar Base VecM GridM GeometryM MaterialM PmlM DftM TfsfM PolarM InterpM H5M ClockM MonitorM FieldM ShippedM
  SpecDft SpecTfsf SpecPulse PulseFacts PulseCase.
Import ListNotations.
Local Open Scope R_scope.
#[local] Existing Instance RNum.

(** ** C65 *)
Theorem C65_continuous : forall f, oscillates f (shape_val (Continuous f)) /\ forall t, Rabs (shape_val (Continuous f) t) <= 1.
Proof. exact continuous_wave. Qed.
Print Assumptions C65_continuous.
Theorem C65_gaussian : forall f sig T0, exists w e, oscillates f w /\ bell sig T0 e /\ (forall t, shape_val (Gaussian f sig T0) t = w t * e t) /\
  forall t, Rabs (shape_val (Gaussian f sig T0) t) <= e t <= 1.
Proof. exact gaussian_wave. Qed.
Print Assumptions C65_gaussian.
(** the two characterisations leave no freedom *)
Theorem C65_one_bell : forall sig t0 e e', bell sig t0 e -> bell sig t0 e' -> forall t, e t = e' t.
Proof. exact one_bell. Qed.
Print Assumptions C65_one_bell.
Theorem C65_one_wave : forall f w w', oscillates f w -> oscillates f w' -> forall t, w t = w' t.
Proof. exact one_wave. Qed.
Print Assumptions C65_one_wave.
(** whatever was done before and is done after, a source given frequencies holds the Fourier sums
    of its waveform over the steps made since it was added *)
Theorem C65_source_spectrum : forall g name s0 l1 s1 sh freq tp nm c k l2 s, 0 < g_dt g -> mk_field g name = Ok s0 -> run l1 s0 = Fine s1 ->
  tp_with_freq sh freq = Ok tp -> forallb keeps_clock l2 = true -> run (AddSource (Source nm c k tp) :: l2) s1 = Fine s ->
  exists r d, nth_error (ph_srcs (f_ph s)) (List.length (ph_srcs (f_ph s1))) = Some r /\ sr_name r = nm /\ tp_dft (sr_tp r) = Some d /\ d_freq d = freq /\
    forall kf f, nth_error freq kf = Some f -> coef d "dft" 0 kf = Some (fourier f (emitted (shape_val sh) (ph_t (f_ph s1)) (g_dt g) (updates l2))).
Proof. exact source_spectrum. Qed.
Print Assumptions C65_source_spectrum.
Example C65_case : forall n, (Z.of_nat n <= 2147483647)%Z -> exists g tp s0 s, mk_grid 120 120 2 5 = Ok g /\ 0 < g_dt g /\ mk_field g "out.h5" = Ok s0 /\
  run [] s0 = Fine s0 /\ tp_with_freq (pulse 100 80) [1; 2] = Ok tp /\
  forallb keeps_clock (SetTfsf (around 60 60 65) tp :: repeat Update n) = true /\
  run (AddSource (Source "lamp" Ez (SPoint (point 30 30)) tp) :: SetTfsf (around 60 60 65) tp :: repeat Update n) s0 = Fine s.
Proof. exact source_case. Qed.

(** ** C66 *)
(** whatever was done before and is done after, the incident line holds the Fourier sums of the
    plane wave at one place of its line, E and H at one time, and the flux is the real part of E
    times the conjugate of H, one value for each frequency *)
Theorem C66_incident_flux : forall g name s0 l1 s1 v sh freq tp s2 l2 s ia ib ja jb, 0 < g_dt g -> mk_field g name = Ok s0 -> run l1 s0 = Fine s1 ->
  tp_with_freq sh freq = Ok tp -> exec (SetTfsf v tp) s1 = Fine s2 -> forallb keeps_line l2 = true -> run l2 s2 = Fine s ->
  to_grid g (v_a v) = Ok (ia, ja) -> to_grid g (v_b v) = Ok (ib, jb) ->
  exists q d fl, ph_tfsf (f_ph s) = Some q /\ q_dft q = Some d /\ tfsf_flux q = Ok fl /\ List.length fl = List.length freq /\
    forall k f, nth_error freq k = Some f ->
      let E := fourier f (stamped 0 (g_dt g) (line_E (shape_val sh) (Z.abs (jb - ja) + 5) (g_dt g)) (updates l2)) in
      let H := fourier f (stamped 0 (g_dt g) (line_H (shape_val sh) (Z.abs (jb - ja) + 5) (g_dt g)) (updates l2)) in
      coef d "E" 0 k = Some E /\ coef d "H" 0 k = Some H /\ nth_error fl k = Some (re_conj E H).
Proof. exact incident_flux. Qed.
Print Assumptions C66_incident_flux.
Example C66_case : forall n, (Z.of_nat n <= 2147483647)%Z -> exists g tp s0 s1 s2 s ia ib ja jb, mk_grid 120 120 2 5 = Ok g /\ 0 < g_dt g /\ mk_field g "out.h5" = Ok s0 /\
  tp_with_freq (pulse 100 80) [1; 2] = Ok tp /\ run [AddSource (Source "lamp" Ez (SPoint (point 30 30)) tp)] s0 = Fine s1 /\
  exec (SetTfsf (around 60 60 65) tp) s1 = Fine s2 /\ run (repeat Update n) s2 = Fine s /\
  forallb keeps_line (repeat Update n) = true /\ updates (repeat Update n) = n /\
  to_grid g (v_a (around 60 60 65)) = Ok (ia, ja) /\ to_grid g (v_b (around 60 60 65)) = Ok (ib, jb).
Proof. exact flux_case. Qed.
