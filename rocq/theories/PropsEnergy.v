(** C20: away from the absorbing layers a lossless field keeps its energy, and the energy bounds the field. *)
From Coq Require Import ZArith Reals List String Bool.
From Verif Require Import Scalar Base VecM GridM GeometryM MaterialM PmlM DftM TfsfM PolarM InterpM H5M ClockM
  MonitorM FieldM SpecGrid OutFacts PhysFacts SpecGeometry GeometryFacts SpecPaint PaintFacts WfFacts ReachFacts InvFacts SpecStep StepFacts EngineFacts YeeFacts SpecWave SpecCone SpecRestart SpecTfsf SpecEnergy EnergyFacts EnergyRun.
Import ListNotations.
Local Open Scope Z_scope.
#[local] Existing Instance RNum.

Theorem C20_energy_kept : forall Lx Ly rs pml g s os eps ez hx hy l b c d,
  (0 < Lx)%R -> (0 < Ly)%R -> (0 < rs)%R -> 0 <= pml -> mk_grid Lx Ly rs pml = Ok g -> apart g ->
  reachable g s -> ph_srcs (f_ph s) = [] -> ph_tfsf (f_ph s) = None ->
  ph_debye (f_ph s) = [] /\ ph_drude (f_ph s) = [] /\ ph_lorentz (f_ph s) = [] ->
  Forall (fun o => clear_material (m_kind (o_mat o))) os -> grid_shows g os vacuum (ph_C (f_ph s)) -> permittivity g os eps ->
  let a := poke ez hx hy s in
  exec Update a = Fine b -> forallb watching l = true -> run l b = Fine c -> exec Update c = Fine d ->
  (forall k x, run (firstn k (Update :: l ++ [Update])) a = Fine x -> off_layers g (f_ph x)) ->
  energy g eps (f_ph c) (f_ph d) = energy g eps (f_ph a) (f_ph b) /\
  (electric g eps (f_ph d) <= 2 * energy g eps (f_ph a) (f_ph b))%R /\
  (magnetic g (f_ph d) <= 2 * energy g eps (f_ph a) (f_ph b))%R.
Proof. exact energy_kept. Qed.
Print Assumptions C20_energy_kept.

(** a flash inside a lens of permittivity 2, followed for n + 2 steps on a grid just wide enough *)
Example C20_case : forall n, (n < 1000)%nat -> let c := Z.of_nat n + 7 in let N := 2 * Z.of_nat n + 16 in
  exists (g : grid) s b x d,
  let eps := lens_eps g c in let a := poke (flash c) nought nought s in
  mk_grid (IZR N) (IZR N) 1%R 1 = Ok g /\ apart g /\ reachable g s /\ ph_srcs (f_ph s) = [] /\ ph_tfsf (f_ph s) = None /\
  (ph_debye (f_ph s) = [] /\ ph_drude (f_ph s) = [] /\ ph_lorentz (f_ph s) = []) /\
  Forall (fun o => clear_material (m_kind (o_mat o))) [lens c] /\ grid_shows g [lens c] vacuum (ph_C (f_ph s)) /\ permittivity g [lens c] eps /\
  exec Update a = Fine b /\ forallb watching (repeat Update n) = true /\ run (repeat Update n) b = Fine x /\ exec Update x = Fine d /\
  (forall k y, run (firstn k (Update :: repeat Update n ++ [Update])) a = Fine y -> off_layers g (f_ph y)) /\
  eps c c = 2%R /\ energy g eps (f_ph a) (f_ph b) = 2%R.
Proof. exact energy_case. Qed.
