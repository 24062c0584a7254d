(** C79: plane waves travel with the frequency of Yee's dispersion relation, which no wave number escapes. *)
From Coq Require Import ZArith Reals List String Bool.
From Verif Require Import Scalar Base VecM GridM GeometryM MaterialM PmlM DftM TfsfM PolarM InterpM H5M ClockM
  MonitorM FieldM SpecGrid OutFacts PhysFacts SpecGeometry GeometryFacts SpecPaint PaintFacts WfFacts ReachFacts InvFacts SpecStep StepFacts EngineFacts YeeFacts SpecWave SpecCone SpecRestart SpecTfsf
  SpecEnergy EnergyFacts EnergyRun SpecPlane PlaneFacts PlaneSpeed PlaneCase.
Import ListNotations.
Local Open Scope Z_scope.
#[local] Existing Instance RNum.

Theorem C79_waves_travel : forall Lx Ly rs pml g s os eps e w P ez hx hy,
  (0 < Lx)%R -> (0 < Ly)%R -> (0 < rs)%R -> 0 <= pml -> mk_grid Lx Ly rs pml = Ok g -> apart g ->
  reachable g s -> ph_srcs (f_ph s) = [] -> ph_tfsf (f_ph s) = None ->
  ph_debye (f_ph s) = [] /\ ph_drude (f_ph s) = [] /\ ph_lorentz (f_ph s) = [] ->
  Forall (fun o => clear_material (m_kind (o_mat o))) os -> grid_shows g os vacuum (ph_C (f_ph s)) -> permittivity g os eps ->
  clear_patch g P -> sin (w_om w / 2) <> 0%R -> dispersion e w ->
  (forall i j, within P 0 i j -> eps i j = e /\ ez i j = wave_E w 0 i j /\ hx i j = wave_Hx w 0 i j /\ hy i j = wave_Hy w 0 i j) ->
  forall n x i j, run (repeat Update n) (poke ez hx hy s) = Fine x -> within P n i j ->
  Ez_of (f_ph x) i j = wave_E w n i j /\
  (i + 1 < x1 P - Z.of_nat n -> j + 1 < y1 P - Z.of_nat n -> Hx_of (f_ph x) i j = wave_Hx w n i j /\ Hy_of (f_ph x) i j = wave_Hy w n i j).
Proof. exact waves_travel. Qed.
Print Assumptions C79_waves_travel.

(** whatever the wave numbers there is a real frequency: no wave grows *)
Theorem C79_every_wave : forall eps a phi kx ky, (1 <= eps)%R ->
  exists om, (0 <= om <= PI / 2)%R /\ dispersion eps (Wave a phi kx ky om).
Proof. exact frequency_exists. Qed.
Print Assumptions C79_every_wave.

(** light covers half a cell per step, over the square root of the permittivity; no wave is faster *)
Theorem C79_slower_than_light : forall eps w, (1 <= eps)%R -> (0 <= w_kx w <= PI)%R -> (0 <= w_ky w <= PI)%R -> (0 <= w_om w <= PI / 2)%R ->
  dispersion eps w -> (4 * eps * (w_om w) ^ 2 <= (w_kx w) ^ 2 + (w_ky w) ^ 2)%R.
Proof. exact slower_than_light. Qed.
Print Assumptions C79_slower_than_light.

(** a wave of any amplitude, phase and direction beside a lens, for n steps *)
Example C79_case : forall n kx ky a phi, (n < 1000)%nat -> (0 < kx < PI)%R -> let N := 2 * Z.of_nat n + 20 in
  exists (g : grid) s w x, let P := Patch 7 (N - 4) 3 (N - 4) in
  let eps := lens_eps g 4 in let ez := wave_E w 0 in let hx := wave_Hx w 0 in let hy := wave_Hy w 0 in
  mk_grid (IZR N) (IZR N) 1%R 1 = Ok g /\ apart g /\ reachable g s /\ ph_srcs (f_ph s) = [] /\ ph_tfsf (f_ph s) = None /\
  (ph_debye (f_ph s) = [] /\ ph_drude (f_ph s) = [] /\ ph_lorentz (f_ph s) = []) /\
  Forall (fun o => clear_material (m_kind (o_mat o))) [lens 4] /\ grid_shows g [lens 4] vacuum (ph_C (f_ph s)) /\ permittivity g [lens 4] eps /\
  clear_patch g P /\ sin (w_om w / 2) <> 0%R /\ dispersion 1 w /\
  (forall i j, within P 0 i j -> eps i j = 1%R /\ ez i j = wave_E w 0 i j /\ hx i j = wave_Hx w 0 i j /\ hy i j = wave_Hy w 0 i j) /\
  run (repeat Update n) (poke ez hx hy s) = Fine x /\ within P n (Z.of_nat n + 9) (Z.of_nat n + 9) /\
  w_kx w = kx /\ w_ky w = ky /\ w_a w = a /\ w_phi w = phi.
Proof. exact plane_case. Qed.
