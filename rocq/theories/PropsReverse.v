(** C77: away from the absorbing layers a lossless field can be run backwards. *)
From Coq Require Import ZArith Reals List String Bool.
From Verif Require Import Scalar Base VecM GridM GeometryM MaterialM PmlM DftM TfsfM PolarM InterpM H5M ClockM
  MonitorM FieldM SpecGrid OutFacts PhysFacts SpecGeometry GeometryFacts SpecPaint PaintFacts WfFacts ReachFacts InvFacts SpecStep StepFacts EngineFacts YeeFacts SpecWave SpecCone SpecRestart SpecTfsf
  SpecEnergy EnergyFacts EnergyRun SpecReverse ReverseFacts ReverseCase.
Import ListNotations.
Local Open Scope Z_scope.
#[local] Existing Instance RNum.

Theorem C77_runs_back : forall Lx Ly rs pml g s os eps ez hx hy,
  (0 < Lx)%R -> (0 < Ly)%R -> (0 < rs)%R -> 0 <= pml -> mk_grid Lx Ly rs pml = Ok g -> apart g ->
  reachable g s -> ph_srcs (f_ph s) = [] -> ph_tfsf (f_ph s) = None ->
  ph_debye (f_ph s) = [] /\ ph_drude (f_ph s) = [] /\ ph_lorentz (f_ph s) = [] ->
  Forall (fun o => clear_material (m_kind (o_mat o))) os -> grid_shows g os vacuum (ph_C (f_ph s)) -> permittivity g os eps ->
  let a := poke ez hx hy s in
  forall n x y, run (repeat Update n) a = Fine x -> exec Update x = Fine y ->
  (forall k w, (k <= S n)%nat -> run (repeat Update k) a = Fine w -> off_layers g (f_ph w)) ->
  forall k z, run (repeat Update k) (turn x y y) = Fine z ->
  ((k <= n)%nat -> shows_back a (n - k) z) /\ (k = S n -> forall i j, Ez_of (f_ph z) i j = ez i j).
Proof. exact film_reverses. Qed.
Print Assumptions C77_runs_back.

(** a flash inside a lens of permittivity 2, run for n + 1 steps and back *)
Example C77_case : forall n, (n < 1000)%nat -> let c := Z.of_nat n + 7 in let N := 2 * Z.of_nat n + 16 in
  exists (g : grid) s x y z,
  let eps := lens_eps g c in let a := poke (flash c) nought nought s in
  mk_grid (IZR N) (IZR N) 1%R 1 = Ok g /\ apart g /\ reachable g s /\ ph_srcs (f_ph s) = [] /\ ph_tfsf (f_ph s) = None /\
  (ph_debye (f_ph s) = [] /\ ph_drude (f_ph s) = [] /\ ph_lorentz (f_ph s) = []) /\
  Forall (fun o => clear_material (m_kind (o_mat o))) [lens c] /\ grid_shows g [lens c] vacuum (ph_C (f_ph s)) /\ permittivity g [lens c] eps /\
  run (repeat Update n) a = Fine x /\ exec Update x = Fine y /\
  (forall k w, (k <= S n)%nat -> run (repeat Update k) a = Fine w -> off_layers g (f_ph w)) /\
  run (repeat Update (S n)) (turn x y y) = Fine z /\ flash c c c = 1%R.
Proof. exact reverse_case. Qed.
