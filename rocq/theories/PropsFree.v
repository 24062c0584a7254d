(** C80: the free far-field functions. *)
From Coq Require Import ZArith Reals List Bool String Lia Lra.
From Verif Require Import Scalar Base VecM GridM DftM InterpM H5M MonitorM FieldM ReportM SpecGrid GridFacts SpecDft SpecSample SampleFacts MonFacts SpecStress FluxFacts FarFacts FarBox
  SpecFar RadiateFacts FreeM FreeFacts.
Import ListNotations.
Local Open Scope R_scope.
#[local] Existing Instance RNum.

Theorem C80_refuted : ~ forall (a b : R * R) sg s m n (dx : R) (c pc : R * R) E H, mk_surface a b sg = Ok s -> a <> b -> sm_surf m = s ->
  recorded (sm_dft m) n ["Ez"%string; h_along a b] -> sm_len m = Z.of_nat n -> broadside a b c pc ->
  dft_get (sm_dft m) "Ez" = Ok E -> dft_get (sm_dft m) (h_along a b) = Ok H ->
  compute_ntff_point E H (d_freq (sm_dft m)) c pc = surf_ntff dx m c pc.
Proof. exact free_differs. Qed.
Print Assumptions C80_refuted.

(** what it returns: one zero per frequency, whatever was recorded *)
Theorem C80_zero_partial : forall (E H : dentry) (freq : list R) (c pc : R * R), pc <> c -> Forall (fun f => 0 < f) freq ->
  compute_ntff_point E H freq c pc = Ok (map (fun _ => (0, 0)) freq).
Proof. intros E H freq c pc _ _. exact (free_zero E H freq c pc). Qed.
Print Assumptions C80_zero_partial.
Example C80_case : (1, 0) <> (0, 0) /\ Forall (fun f => 0 < f) [1; 2].
Proof. split; [intros E; injection E; lra|repeat constructor; lra]. Qed.

(** no sample can be taken with surface_monitor::locate *)
Theorem C80_locate_refuted : forall (N : Num) (g : @grid N) (m : @surf_mon N) name i v, @surf_locate N g m name i <> Ok v.
Proof. exact locate_never. Qed.
Print Assumptions C80_locate_refuted.
