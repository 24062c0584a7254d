(** C75: conductors and single-pole Debye and Drude media only ever take energy from the field: what
    fields and media hold together falls, from step to step, by exactly the heat. *)
From Coq Require Import ZArith Reals List String Bool.
From Verif Require Import Scalar Base VecM GridM GeometryM MaterialM PmlM DftM TfsfM PolarM InterpM H5M ClockM
  MonitorM FieldM SpecGrid OutFacts PhysFacts SpecGeometry SpecPaint PaintFacts SpecStep StepFacts SpecTrace SpecMedia SpecTfsf SpecEnergy EnergyRun SpecLoss LossFacts LossRun LossCase.
Import ListNotations.
Local Open Scope R_scope.
#[local] Existing Instance RNum.

Theorem C75_heat_balance : forall Lx Ly rs pml g name s0 s l0 mat ez hx hy,
  0 < Lx -> 0 < Ly -> 0 < rs -> (0 <= pml)%Z -> mk_grid Lx Ly rs pml = Ok g -> apart g ->
  mk_field g name = Ok s0 -> run l0 s0 = Fine s ->
  forallb (fun c => negb (repositions c)) l0 = true -> ~ In ClearFields l0 ->
  Forall (fun o => shape_ok (o_geom o)) (added l0) -> (forall o y, In o (added l0) -> m_kind (o_mat o) <> KLorentz y) ->
  ph_srcs (f_ph s) = [] -> ph_tfsf (f_ph s) = None -> made_from g (added l0) mat ->
  forall l b c d e, let a := poke ez hx hy s in
  exec Update a = Fine b -> forallb watching l = true -> run l b = Fine c -> exec Update c = Fine d -> exec Update d = Fine e ->
  (forall k x, run (firstn k (Update :: l ++ [Update; Update])) a = Fine x -> off_layers g (f_ph x)) ->
  whole g mat (f_ph d) (f_ph e) = whole g mat (f_ph c) (f_ph d) - 2 * g_dt g * heating g mat (f_ph d) (f_ph e) /\
  0 <= heating g mat (f_ph d) (f_ph e).
Proof. exact heat_balance. Qed.
Print Assumptions C75_heat_balance.

Theorem C75_never_gains : forall Lx Ly rs pml g name s0 s l0 mat ez hx hy,
  0 < Lx -> 0 < Ly -> 0 < rs -> (0 <= pml)%Z -> mk_grid Lx Ly rs pml = Ok g -> apart g ->
  mk_field g name = Ok s0 -> run l0 s0 = Fine s ->
  forallb (fun c => negb (repositions c)) l0 = true -> ~ In ClearFields l0 ->
  Forall (fun o => shape_ok (o_geom o)) (added l0) -> (forall o y, In o (added l0) -> m_kind (o_mat o) <> KLorentz y) ->
  ph_srcs (f_ph s) = [] -> ph_tfsf (f_ph s) = None -> made_from g (added l0) mat ->
  forall l b c d, let a := poke ez hx hy s in
  exec Update a = Fine b -> forallb watching l = true -> run l b = Fine c -> exec Update c = Fine d ->
  (forall k x, run (firstn k (Update :: l ++ [Update])) a = Fine x -> off_layers g (f_ph x)) ->
  whole g mat (f_ph c) (f_ph d) <= whole g mat (f_ph a) (f_ph b) /\
  electric g (eps_map mat) (f_ph d) <= 2 * whole g mat (f_ph a) (f_ph b) /\
  magnetic g (f_ph d) <= 2 * whole g mat (f_ph a) (f_ph b).
Proof. exact never_gains. Qed.
Print Assumptions C75_never_gains.

(** a flash inside a round piece of any absorbing medium, followed for n + 2 steps *)
Example C75_case : forall n k, (n < 1000)%nat -> absorber k -> let c := (Z.of_nat n + 7)%Z in let N := (2 * Z.of_nat n + 16)%Z in
  exists (g : grid) s0 s b x d,
  let l0 := [AddObject (drop k c)] in let mat := drop_map g k c in let a := poke (flash c) nought nought s in
  mk_grid (IZR N) (IZR N) 1 1 = Ok g /\ apart g /\ mk_field g "out" = Ok s0 /\ run l0 s0 = Fine s /\
  forallb (fun c => negb (repositions c)) l0 = true /\ ~ In ClearFields l0 /\
  Forall (fun o => shape_ok (o_geom o)) (added l0) /\ (forall o y, In o (added l0) -> m_kind (o_mat o) <> KLorentz y) /\
  ph_srcs (f_ph s) = [] /\ ph_tfsf (f_ph s) = None /\ made_from g (added l0) mat /\
  exec Update a = Fine b /\ forallb watching (repeat Update n) = true /\ run (repeat Update n) b = Fine x /\ exec Update x = Fine d /\
  (forall k y, run (firstn k (Update :: repeat Update n ++ [Update])) a = Fine y -> off_layers g (f_ph y)) /\
  mat c c = Material "stuff" k /\ Ez_of (f_ph a) c c = 1.
Proof. exact loss_case. Qed.
(** absorbing media of each kind *)
Example C75_media : absorber (KSimple (Simple 2 1 1)) /\ absorber (KDebye (Debye 2 [DPole 1 1])) /\ absorber (KDrude (Drude 1 [UPole 1 1])).
Proof. exact some_absorbers. Qed.
