(** C78: reciprocity, in scenes of conductors, Debye and Drude media, as long as the field has not reached the layers. *)
From Coq Require Import ZArith Reals List String Bool.
From Verif Require Import Scalar Base VecM GridM GeometryM MaterialM PmlM DftM TfsfM PolarM InterpM H5M ClockM
  MonitorM FieldM SpecGrid OutFacts PhysFacts SpecGeometry GeometryFacts SpecPaint PaintFacts WfFacts ReachFacts InvFacts SpecStep StepFacts EngineFacts YeeFacts SpecWave SpecCone SpecRestart SpecTfsf
  SpecMedia SpecTrace SpecEnergy EnergyFacts EnergyRun SpecLoss LossFacts LossRun LossCase SpecRecip RecipFacts RecipRun RecipCase.
Import ListNotations.
Local Open Scope R_scope.
#[local] Existing Instance RNum.

(** a flash at A shows at B what a flash at B shows at A *)
Theorem C78_there_and_back : forall Lx Ly rs pml g name s0 s l0 mat,
  0 < Lx -> 0 < Ly -> 0 < rs -> (0 <= pml)%Z -> mk_grid Lx Ly rs pml = Ok g -> apart g ->
  mk_field g name = Ok s0 -> run l0 s0 = Fine s ->
  forallb (fun c => negb (repositions c)) l0 = true -> ~ In ClearFields l0 ->
  Forall (fun o => SpecGeometry.shape_ok (o_geom o)) (added l0) -> (forall o y, In o (added l0) -> m_kind (o_mat o) <> KLorentz y) ->
  ph_srcs (f_ph s) = [] -> ph_tfsf (f_ph s) = None -> made_from g (added l0) mat ->
  forall A B n x y, in_grid (g_Nx g) (g_Ny g) A -> in_grid (g_Nx g) (g_Ny g) B -> plain (mat (fst A) (snd A)) -> plain (mat (fst B) (snd B)) ->
  let a := poke (flash_at A) unlit unlit s in let b := poke (flash_at B) unlit unlit s in
  run (repeat Update n) a = Fine x -> run (repeat Update n) b = Fine y ->
  (forall k w, (k <= n)%nat -> run (repeat Update k) a = Fine w -> off_layers g (f_ph w)) ->
  (forall k w, (k <= n)%nat -> run (repeat Update k) b = Fine w -> off_layers g (f_ph w)) ->
  strength (g_dt g) (mat (fst B) (snd B)) * Ez_of (f_ph x) (fst B) (snd B) = strength (g_dt g) (mat (fst A) (snd A)) * Ez_of (f_ph y) (fst A) (snd A).
Proof. exact there_and_back. Qed.
Print Assumptions C78_there_and_back.

(** the same for any two starting fields *)
Theorem C78_reciprocity : forall Lx Ly rs pml g name s0 s l0 mat,
  0 < Lx -> 0 < Ly -> 0 < rs -> (0 <= pml)%Z -> mk_grid Lx Ly rs pml = Ok g -> apart g ->
  mk_field g name = Ok s0 -> run l0 s0 = Fine s ->
  forallb (fun c => negb (repositions c)) l0 = true -> ~ In ClearFields l0 ->
  Forall (fun o => SpecGeometry.shape_ok (o_geom o)) (added l0) -> (forall o y, In o (added l0) -> m_kind (o_mat o) <> KLorentz y) ->
  ph_srcs (f_ph s) = [] -> ph_tfsf (f_ph s) = None -> made_from g (added l0) mat ->
  forall u v n x y, in_plain g mat u -> in_plain g mat v ->
  let a := poke u unlit unlit s in let b := poke v unlit unlit s in
  run (repeat Update n) a = Fine x -> run (repeat Update n) b = Fine y ->
  (forall k w, (k <= n)%nat -> run (repeat Update k) a = Fine w -> off_layers g (f_ph w)) ->
  (forall k w, (k <= n)%nat -> run (repeat Update k) b = Fine w -> off_layers g (f_ph w)) ->
  total g (fun i j => strength (g_dt g) (mat i j) * u i j * Ez_of (f_ph y) i j) =
  total g (fun i j => strength (g_dt g) (mat i j) * v i j * Ez_of (f_ph x) i j).
Proof. exact reciprocity. Qed.
Print Assumptions C78_reciprocity.

(** two flashes on two sides of a round piece of any absorbing medium, followed for n steps *)
Example C78_case : forall n k, (n < 1000)%nat -> absorber k -> let c := (Z.of_nat n + 10)%Z in let N := (2 * Z.of_nat n + 24)%Z in
  exists (g : grid) s0 s x y,
  let l0 := [AddObject (drop k c)] in let mat := drop_map g k c in
  let A := (c - 3, c)%Z in let B := (c + 1, c + 3)%Z in
  let a := poke (flash_at A) unlit unlit s in let b := poke (flash_at B) unlit unlit s in
  mk_grid (IZR N) (IZR N) 1%R 1 = Ok g /\ apart g /\ mk_field g "out" = Ok s0 /\ run l0 s0 = Fine s /\
  forallb (fun c => negb (repositions c)) l0 = true /\ ~ In ClearFields l0 /\
  Forall (fun o => SpecGeometry.shape_ok (o_geom o)) (added l0) /\ (forall o y, In o (added l0) -> m_kind (o_mat o) <> KLorentz y) /\
  ph_srcs (f_ph s) = [] /\ ph_tfsf (f_ph s) = None /\ made_from g (added l0) mat /\
  in_grid (g_Nx g) (g_Ny g) A /\ in_grid (g_Nx g) (g_Ny g) B /\ plain (mat (fst A) (snd A)) /\ plain (mat (fst B) (snd B)) /\
  in_plain g mat (flash_at A) /\ in_plain g mat (flash_at B) /\
  run (repeat Update n) a = Fine x /\ run (repeat Update n) b = Fine y /\
  (forall k w, (k <= n)%nat -> run (repeat Update k) a = Fine w -> off_layers g (f_ph w)) /\
  (forall k w, (k <= n)%nat -> run (repeat Update k) b = Fine w -> off_layers g (f_ph w)) /\
  mat c c = Material "stuff" k /\ strength (g_dt g) (mat (fst A) (snd A)) = 1%R /\ strength (g_dt g) (mat (fst B) (snd B)) = 1%R.
Proof. exact recip_case. Qed.
Example C78_media : absorber (KSimple (Simple 2%R 1%R 1%R)) /\ absorber (KDebye (Debye 2%R [DPole 1%R 1%R])) /\ absorber (KDrude (Drude 1%R [UPole 1%R 1%R])).
Proof. exact some_absorbers. Qed.
