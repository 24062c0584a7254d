(** Properties of the material models: C42-C49, C56.  [step_at g s s' i j] (CellFacts.v) is one
    successful update of any reachable state, seen at an interior cell that no source drives and
    that the TFSF source, if there is one, does not correct (SpecRim.v). *)
From Coq Require Import ZArith Reals List Bool String Lia Psatz Permutation.
From Verif Require Import Scalar Base BaseFacts VecM GridM GeometryM MaterialM PmlM DftM TfsfM PolarM
  InterpM H5M ClockM MonitorM FieldM SpecGrid GridFacts SpecGeometry GeometryFacts OutFacts PhysFacts
  SpecPaint PaintFacts WfFacts ReachFacts SafetyFacts SpecSafety SafeFacts SpecStep StepFacts EngineFacts YeeFacts SpecSource SpecMedium PolarFacts FullStep SpecRim MediumFacts StrengthFacts
  SpecMedia MediaRun SpecMaterial MaterialFacts OutsideFacts MagnetFacts ExampleFacts ExampleSrc PaintSafe ExampleMedia RefuteMedia
  SpecTrace TraceFacts CellFacts RefuteTrace MediaCases RimCase.
Import ListNotations.
Local Open Scope R_scope.
#[local] Existing Instance RNum.

(** ** C42 *)
Theorem C42_coefficients : forall m dt, 0 < dt -> 0 < sm_eps m -> 0 <= sm_conduc m ->
  Rabs (mat_Ca (KSimple m) dt) <= 1 /\ 0 < mat_Cb (KSimple m) dt /\ (sm_conduc m = 0 -> mat_Ca (KSimple m) dt = 1).
Proof. exact simple_coefs. Qed.
Print Assumptions C42_coefficients.
(** any cell holding the coefficients of m and no polarization *)
Theorem C42_simple_law : forall g s s' i j m, step_at g s s' i j -> 0 < sm_eps m -> 0 <= sm_conduc m ->
  simple_only (f_ph s) m i j ->
  conductor_law (sm_eps m) (sm_conduc m) (g_dt g) (Ez_at (f_ph s) i j) (Ez_at (f_ph s') i j) (curl_at (f_ph s) i j).
Proof. exact (fun g s s' i j m H => cell_simple g s s' i j H m). Qed.
Print Assumptions C42_simple_law.
(** the same, from the objects a program added *)
Theorem C42_simple_objects : forall g fname s0 s s' l i j m,
  grid_ok g -> mk_field g fname = Ok s0 -> run l s0 = Fine s ->
  forallb (fun c => negb (repositions c)) l = true -> ~ In ClearFields l ->
  Forall (fun o => shape_ok (o_geom o)) (added l) -> (0 <= i < g_Nx g)%Z -> (0 <= j < g_Ny g)%Z ->
  material_at (added l) vacuum (g_dx g * IZR i, g_dx g * IZR j) (KSimple m) ->
  (forall o, In o (added l) -> in_obj o (g_dx g * IZR i, g_dx g * IZR j) -> ~ dispersive (m_kind (o_mat o))) ->
  (forall o y, In o (added l) -> m_kind (o_mat o) <> KLorentz y) ->
  step_at g s s' i j -> 0 < sm_eps m -> 0 <= sm_conduc m ->
  conductor_law (sm_eps m) (sm_conduc m) (g_dt g) (Ez_at (f_ph s) i j) (Ez_at (f_ph s') i j) (curl_at (f_ph s) i j).
Proof.
  exact (fun g fname s0 s s' l i j m Hg H0 Hr Hl Hc Hs Hi Hj Hm Hd Nl H E S =>
    cell_simple g s s' i j H m E S (run_simple g fname s0 s l i j m Hg H0 Hr Hl Hc Hs Hi Hj Hm Hd Nl)).
Qed.
Print Assumptions C42_simple_objects.

(** ** C43: the magnetic update uses mu = 1 whatever the material says *)
Theorem C43_permeability_partial : forall g s s' i j, apart g -> reachable g s -> 0 < g_dt g -> update s = Fine s' ->
  (g_pml g <= i < g_Nx g - 1 - g_pml g)%Z -> (g_pml g <= j < g_Ny g - 1 - g_pml g)%Z -> (1 <= i)%Z -> (1 <= j)%Z ->
  (i < g_Nx g - 1)%Z -> (j < g_Ny g - 1)%Z ->
  (off_Hx (ph_tfsf (f_ph s)) i j -> undriven (ph_t (f_ph s) + g_dt g) g (ph_srcs (f_ph s)) Hx i j ->
   faraday 1 (g_dt g) (Hx_at (f_ph s) i j) (Hx_at (f_ph s') i j) (curl_e_x (f_ph s') i j)) /\
  (off_Hy (ph_tfsf (f_ph s)) i j -> undriven (ph_t (f_ph s) + g_dt g) g (ph_srcs (f_ph s)) Hy i j ->
   faraday 1 (g_dt g) (Hy_at (f_ph s) i j) (Hy_at (f_ph s') i j) (curl_e_y (f_ph s') i j)).
Proof. exact magnetic_law. Qed.
Print Assumptions C43_permeability_partial.
Theorem C43_permeability_refuted : ~ (forall g s s' i j m, apart g -> reachable g s -> 0 < g_dt g -> ph_tfsf (f_ph s) = None -> update s = Fine s' ->
  (g_pml g <= i < g_Nx g - 1 - g_pml g)%Z -> (g_pml g <= j < g_Ny g - 1 - g_pml g)%Z ->
  undriven (ph_t (f_ph s) + g_dt g) g (ph_srcs (f_ph s)) Hx i j -> 0 < sm_mu m -> simple_only (f_ph s) m i j ->
  faraday (sm_mu m) (g_dt g) (Hx_at (f_ph s) i j) (Hx_at (f_ph s') i j) (curl_e_x (f_ph s') i j)).
Proof. exact magnet_fails. Qed.
Print Assumptions C43_permeability_refuted.

(** ** C44 *)
Theorem C44_debye_law : forall g s s' i j n nm x q d, step_at g s s' i j ->
  0 < db_eps x -> 0 < dp_tau d /\ 0 <= dp_deps d -> db_poles x = [d] -> debye_only (f_ph s) n nm x q i j ->
  exists q', entry (ph_debye (f_ph s')) n nm x q' /\
    ampere (db_eps x) (g_dt g) (Ez_at (f_ph s) i j) (Ez_at (f_ph s') i j) (curl_at (f_ph s) i j) (J_at q i j 0) (J_at q' i j 0) /\
    debye_law (dp_deps d) (dp_tau d) (g_dt g) (Ez_at (f_ph s) i j) (Ez_at (f_ph s') i j) (J_at q i j 0) (J_at q' i j 0).
Proof. exact (fun g s s' i j n nm x q d H => cell_debye g s s' i j H n nm x q d). Qed.
Print Assumptions C44_debye_law.
Theorem C44_debye_objects : forall g fname s0 s s' l i j nm x d,
  grid_ok g -> mk_field g fname = Ok s0 -> run l s0 = Fine s ->
  forallb (fun c => negb (repositions c)) l = true -> ~ In ClearFields l ->
  Forall (fun o => shape_ok (o_geom o)) (added l) -> (0 <= i < g_Nx g)%Z -> (0 <= j < g_Ny g)%Z ->
  only_in (added l) nm (KDebye x) (g_dx g * IZR i, g_dx g * IZR j) ->
  (forall o y, In o (added l) -> m_kind (o_mat o) <> KLorentz y) ->
  step_at g s s' i j -> 0 < db_eps x -> 0 < dp_tau d /\ 0 <= dp_deps d -> db_poles x = [d] ->
  exists n q q', entry (ph_debye (f_ph s)) n nm x q /\ entry (ph_debye (f_ph s')) n nm x q' /\
    ampere (db_eps x) (g_dt g) (Ez_at (f_ph s) i j) (Ez_at (f_ph s') i j) (curl_at (f_ph s) i j) (J_at q i j 0) (J_at q' i j 0) /\
    debye_law (dp_deps d) (dp_tau d) (g_dt g) (Ez_at (f_ph s) i j) (Ez_at (f_ph s') i j) (J_at q i j 0) (J_at q' i j 0).
Proof. exact debye_objects. Qed.
Print Assumptions C44_debye_objects.
Theorem C44_debye_kappa : forall dt d, 0 < dt -> 0 < dp_tau d -> -1 < debye_kappa1 dt d < 1.
Proof. exact debye_kappa_unit. Qed.
Print Assumptions C44_debye_kappa.

(** ** C45 *)
Theorem C45_drude_law : forall g s s' i j n nm x q d, step_at g s s' i j ->
  0 < dr_eps x -> 0 <= up_gamma d -> dr_poles x = [d] -> drude_only (f_ph s) n nm x q i j ->
  exists q', entry (ph_drude (f_ph s')) n nm x q' /\
    ampere (dr_eps x) (g_dt g) (Ez_at (f_ph s) i j) (Ez_at (f_ph s') i j) (curl_at (f_ph s) i j) (J_at q i j 0) (J_at q' i j 0) /\
    drude_law (up_omega d) (up_gamma d) (g_dt g) (Ez_at (f_ph s) i j) (Ez_at (f_ph s') i j) (J_at q i j 0) (J_at q' i j 0).
Proof. exact (fun g s s' i j n nm x q d H => cell_drude g s s' i j H n nm x q d). Qed.
Print Assumptions C45_drude_law.
Theorem C45_drude_objects : forall g fname s0 s s' l i j nm x d,
  grid_ok g -> mk_field g fname = Ok s0 -> run l s0 = Fine s ->
  forallb (fun c => negb (repositions c)) l = true -> ~ In ClearFields l ->
  Forall (fun o => shape_ok (o_geom o)) (added l) -> (0 <= i < g_Nx g)%Z -> (0 <= j < g_Ny g)%Z ->
  only_in (added l) nm (KDrude x) (g_dx g * IZR i, g_dx g * IZR j) ->
  (forall o y, In o (added l) -> m_kind (o_mat o) <> KLorentz y) ->
  step_at g s s' i j -> 0 < dr_eps x -> 0 <= up_gamma d -> dr_poles x = [d] ->
  exists n q q', entry (ph_drude (f_ph s)) n nm x q /\ entry (ph_drude (f_ph s')) n nm x q' /\
    ampere (dr_eps x) (g_dt g) (Ez_at (f_ph s) i j) (Ez_at (f_ph s') i j) (curl_at (f_ph s) i j) (J_at q i j 0) (J_at q' i j 0) /\
    drude_law (up_omega d) (up_gamma d) (g_dt g) (Ez_at (f_ph s) i j) (Ez_at (f_ph s') i j) (J_at q i j 0) (J_at q' i j 0).
Proof. exact drude_objects. Qed.
Print Assumptions C45_drude_objects.

(** ** C46: the resonator equation holds; Ampere's law is off by a multiple of the field one step back *)
Theorem C46_lorentz_law_partial : forall g s s' i j nm x q d, step_at g s s' i j ->
  0 < lo_eps x -> 0 <= lp_gamma d /\ 0 <= lp_deps d -> lo_poles x = [d] -> lorentz_only (f_ph s) nm x q i j ->
  exists q' e2, ph_lorentz (f_ph s') = [(nm, (x, q'))] /\ ph_prevE (f_ph s) = Some e2 /\
    t3val (pl_pJ q') i j 0 = J_at q i j 0 /\
    resonator_law (lp_omega d) (lp_deps d) (lp_gamma d) (g_dt g) (tval e2 i j) (Ez_at (f_ph s') i j) (t3val (pl_pJ q) i j 0) (J_at q i j 0) (J_at q' i j 0) /\
    let c := lorentz_delta1 (g_dt g) d in
    lo_eps x * (Ez_at (f_ph s') i j - Ez_at (f_ph s) i j) / g_dt g =
      curl_at (f_ph s) i j - (J_at q' i j 0 + J_at q i j 0) / 2 - c ^ 2 / (8 * g_dt g * (2 * lo_eps x + c)) * tval e2 i j.
Proof. exact (fun g s s' i j nm x q d H => cell_lorentz g s s' i j H nm x q d). Qed.
Print Assumptions C46_lorentz_law_partial.
Theorem C46_lorentz_law_refuted : ~ (forall g s s' i j nm x q d, step_at g s s' i j ->
  0 < lo_eps x -> 0 <= lp_gamma d /\ 0 <= lp_deps d -> lo_poles x = [d] -> lorentz_only (f_ph s) nm x q i j ->
  exists q', ph_lorentz (f_ph s') = [(nm, (x, q'))] /\
    ampere (lo_eps x) (g_dt g) (Ez_at (f_ph s) i j) (Ez_at (f_ph s') i j) (curl_at (f_ph s) i j) (J_at q i j 0) (J_at q' i j 0)).
Proof. exact lorentz_fails. Qed.
Print Assumptions C46_lorentz_law_refuted.

(** ** C47: for any number of poles there are currents Jx that solve the equations exactly; the
    stored current of pole k misses the shares of the poles after k *)
Theorem C47_debye_poles_partial : forall g s s' i j n nm x q, step_at g s s' i j ->
  0 < db_eps x -> Forall (fun d => 0 < dp_tau d /\ 0 <= dp_deps d) (db_poles x) -> debye_only (f_ph s) n nm x q i j ->
  let np := List.length (db_poles x) in
  let J k := J_at q i j (Z.of_nat k) in
  exists q' Jx, entry (ph_debye (f_ph s')) n nm x q' /\
    (forall k d, nth_error (db_poles x) k = Some d ->
       debye_law (dp_deps d) (dp_tau d) (g_dt g) (Ez_at (f_ph s) i j) (Ez_at (f_ph s') i j) (J k) (Jx k)) /\
    ampere (db_eps x) (g_dt g) (Ez_at (f_ph s) i j) (Ez_at (f_ph s') i j) (curl_at (f_ph s) i j) (rsum np J) (rsum np Jx) /\
    forall k d, nth_error (db_poles x) k = Some d -> J_at q' i j (Z.of_nat k) = Jx k + debye_beta1 (g_dt g) d / g_dt g *
      rsum (np - S k) (fun l => debye_Cb x (g_dt g) / 2 * (1 + nth (S k + l) (debye_kappa x (g_dt g)) 0) * J (S k + l)%nat).
Proof. exact (fun g s s' i j n nm x q H => cell_debye_all g s s' i j H n nm x q). Qed.
Print Assumptions C47_debye_poles_partial.
Theorem C47_drude_poles_partial : forall g s s' i j n nm x q, step_at g s s' i j ->
  0 < dr_eps x -> Forall (fun d => 0 <= up_gamma d) (dr_poles x) -> drude_only (f_ph s) n nm x q i j ->
  let np := List.length (dr_poles x) in
  let J k := J_at q i j (Z.of_nat k) in
  exists q' Jx, entry (ph_drude (f_ph s')) n nm x q' /\
    (forall k d, nth_error (dr_poles x) k = Some d ->
       drude_law (up_omega d) (up_gamma d) (g_dt g) (Ez_at (f_ph s) i j) (Ez_at (f_ph s') i j) (J k) (Jx k)) /\
    ampere (dr_eps x) (g_dt g) (Ez_at (f_ph s) i j) (Ez_at (f_ph s') i j) (curl_at (f_ph s) i j) (rsum np J) (rsum np Jx) /\
    forall k d, nth_error (dr_poles x) k = Some d -> J_at q' i j (Z.of_nat k) = Jx k + drude_beta1 (g_dt g) d *
      rsum (np - S k) (fun l => drude_Cb x (g_dt g) / 2 * (1 + nth (S k + l) (drude_kappa x (g_dt g)) 0) * J (S k + l)%nat).
Proof. exact (fun g s s' i j n nm x q H => cell_drude_all g s s' i j H n nm x q). Qed.
Print Assumptions C47_drude_poles_partial.
(** one step from states equal up to the order of the poles gives the same field *)
Theorem C47_debye_order_partial : forall g s s' t t' i j n n' nm nm' x y q r, step_at g s s' i j -> step_at g t t' i j ->
  debye_only (f_ph s) n nm x q i j -> debye_only (f_ph t) n' nm' y r i j -> db_eps x = db_eps y ->
  Permutation (with_currents (db_poles x) q i j) (with_currents (db_poles y) r i j) ->
  Ez_at (f_ph s) i j = Ez_at (f_ph t) i j -> curl_at (f_ph s) i j = curl_at (f_ph t) i j ->
  Ez_at (f_ph s') i j = Ez_at (f_ph t') i j.
Proof. exact debye_order. Qed.
Print Assumptions C47_debye_order_partial.
Theorem C47_drude_order_partial : forall g s s' t t' i j n n' nm nm' x y q r, step_at g s s' i j -> step_at g t t' i j ->
  drude_only (f_ph s) n nm x q i j -> drude_only (f_ph t) n' nm' y r i j -> dr_eps x = dr_eps y ->
  Permutation (with_currents (dr_poles x) q i j) (with_currents (dr_poles y) r i j) ->
  Ez_at (f_ph s) i j = Ez_at (f_ph t) i j -> curl_at (f_ph s) i j = curl_at (f_ph t) i j ->
  Ez_at (f_ph s') i j = Ez_at (f_ph t') i j.
Proof. exact drude_order. Qed.
Print Assumptions C47_drude_order_partial.
Theorem C47_lorentz_order_partial : forall g s s' t t' i j nm nm' x y q r e e', step_at g s s' i j -> step_at g t t' i j ->
  lorentz_only (f_ph s) nm x q i j -> lorentz_only (f_ph t) nm' y r i j -> lo_eps x = lo_eps y ->
  Permutation (with_history (lo_poles x) q i j) (with_history (lo_poles y) r i j) ->
  ph_prevE (f_ph s) = Some e -> ph_prevE (f_ph t) = Some e' -> tval e i j = tval e' i j ->
  Ez_at (f_ph s) i j = Ez_at (f_ph t) i j -> curl_at (f_ph s) i j = curl_at (f_ph t) i j ->
  Ez_at (f_ph s') i j = Ez_at (f_ph t') i j.
Proof. exact lorentz_order. Qed.
Print Assumptions C47_lorentz_order_partial.
Theorem C47_poles_refuted : ~ (forall g s s' i j n nm x q, step_at g s s' i j ->
  0 < db_eps x -> Forall (fun d => 0 < dp_tau d /\ 0 <= dp_deps d) (db_poles x) -> debye_only (f_ph s) n nm x q i j ->
  exists q', entry (ph_debye (f_ph s')) n nm x q' /\
    forall k d, nth_error (db_poles x) k = Some d ->
      debye_law (dp_deps d) (dp_tau d) (g_dt g) (Ez_at (f_ph s) i j) (Ez_at (f_ph s') i j) (J_at q i j (Z.of_nat k)) (J_at q' i j (Z.of_nat k))).
Proof. exact poles_fail. Qed.
Print Assumptions C47_poles_refuted.

(** ** C48 *)
Theorem C48_local_partial : forall g s s1 s2 o s2' i j, apart g -> reachable g s ->
  (forall y, m_kind (o_mat o) <> KLorentz y) -> exec (AddObject o) s = Fine s2 ->
  update s = Fine s1 -> update s2 = Fine s2' ->
  (0 <= i < g_Nx g)%Z -> (0 <= j < g_Ny g)%Z -> ~ in_obj o (to_real g (i, j)) ->
  Ez_at (f_ph s2') i j = Ez_at (f_ph s1) i j.
Proof. exact outside_local. Qed.
Print Assumptions C48_local_partial.
Theorem C48_local_refuted : ~ (forall g s s1 s2 o s2' i j, apart g -> reachable g s -> ph_tfsf (f_ph s) = None ->
  exec (AddObject o) s = Fine s2 -> update s = Fine s1 -> update s2 = Fine s2' ->
  (0 <= i < g_Nx g)%Z -> (0 <= j < g_Ny g)%Z -> ~ in_obj o (to_real g (i, j)) ->
  Ez_at (f_ph s2') i j = Ez_at (f_ph s1) i j).
Proof. exact outside_fails. Qed.
Print Assumptions C48_local_refuted.

(** ** C49 *)
Theorem C49_drude_lorentz : forall d l,
  lo_eps (drude_lorentz d l) = dr_eps d /\
  List.length (lo_poles (drude_lorentz d l)) = (List.length (dr_poles d) + List.length (lo_poles l))%nat /\
  (forall k p, nth_error (dr_poles d) k = Some p -> forall dt, 0 <= up_gamma p -> 0 <= dt -> exists q,
     nth_error (lo_poles (drude_lorentz d l)) k = Some q /\
     nth k (lorentz_delta (drude_lorentz d l) dt) 0 = up_omega p ^ 2 * dt ^ 2 / (1 + up_gamma p * dt / 2) /\
     nth k (lorentz_beta (drude_lorentz d l) dt) 0 = (up_gamma p * dt / 2 - 1) / (up_gamma p * dt / 2 + 1) /\
     nth k (lorentz_alpha (drude_lorentz d l) dt) 0 = (2 - (/ 10 ^ 20) ^ 2 * dt ^ 2) / (1 + up_gamma p * dt / 2) /\
     lp_deps q * lp_omega q ^ 2 = up_omega p ^ 2 /\ 2 * lp_gamma q = up_gamma p) /\
  (forall k, nth_error (lo_poles (drude_lorentz d l)) (List.length (dr_poles d) + k) = nth_error (lo_poles l) k).
Proof. exact drude_lorentz_shape. Qed.
Print Assumptions C49_drude_lorentz.

(** ** C56 *)
Theorem C56_traceless_partial : forall g fname s0 s l i j, grid_ok g -> mk_field g fname = Ok s0 -> run l s0 = Fine s ->
  forallb (fun c => negb (repositions c)) l = true -> ~ In ClearFields l ->
  Forall (fun o => shape_ok (o_geom o)) (added l) -> (0 <= i < g_Nx g)%Z -> (0 <= j < g_Ny g)%Z ->
  names_agree (added l) -> one_medium (added l) (g_dx g * IZR i, g_dx g * IZR j) -> traceless g (f_ph s) i j.
Proof. exact run_traceless. Qed.
Print Assumptions C56_traceless_partial.
(** a later object over a dispersive one *)
Theorem C56_overlap_refuted : ~ (forall g fname s0 s l i j, grid_ok g -> mk_field g fname = Ok s0 -> run l s0 = Fine s ->
  forallb (fun c => negb (repositions c)) l = true -> ~ In ClearFields l ->
  Forall (fun o => shape_ok (o_geom o)) (added l) -> (0 <= i < g_Nx g)%Z -> (0 <= j < g_Ny g)%Z ->
  names_agree (added l) -> traceless g (f_ph s) i j).
Proof. exact overlap_fails. Qed.
Print Assumptions C56_overlap_refuted.
(** a dispersive object moved away, followed by update_material_grid *)
Theorem C56_move_refuted : ~ (forall g fname s0 l s s' i j, grid_ok g -> mk_field g fname = Ok s0 -> run l s0 = Fine s ->
  ~ In ClearFields l -> exec UpdateMaterialGrid s = Fine s' ->
  Forall (fun o => shape_ok (o_geom o)) (ph_objs (f_ph s)) -> names_agree (ph_objs (f_ph s)) ->
  (forall o o', In o (ph_objs (f_ph s)) -> In o' (ph_objs (f_ph s)) -> dispersive (m_kind (o_mat o)) -> dispersive (m_kind (o_mat o')) -> o = o') ->
  (0 <= i < g_Nx g)%Z -> (0 <= j < g_Ny g)%Z -> traceless g (f_ph s') i j).
Proof. exact move_fails. Qed.
Print Assumptions C56_move_refuted.

(** ** Cases *)
(** a step of a program with a source at (3, 3) and a block of material k around it *)
Example C42_case : exists g s0 s s', grid_ok g /\ mk_field g "out" = Ok s0 /\
  run (brick_cmds (KSimple (Simple 2 1 1))) s0 = Fine s /\ step_at g s s' 3 2 /\
  material_at (added (brick_cmds (KSimple (Simple 2 1 1)))) vacuum (g_dx g * IZR 3, g_dx g * IZR 2) (KSimple (Simple 2 1 1)) /\
  simple_only (f_ph s) (Simple 2 1 1) 3 2.
Proof. exact simple_case. Qed.
Example C44_case : exists g s0 s s' n q, grid_ok g /\ mk_field g "out" = Ok s0 /\
  run (brick_cmds (KDebye (Debye 1 [DPole 1 1]))) s0 = Fine s /\ step_at g s s' 3 2 /\
  only_in (added (brick_cmds (KDebye (Debye 1 [DPole 1 1])))) "stuff" (KDebye (Debye 1 [DPole 1 1])) (g_dx g * IZR 3, g_dx g * IZR 2) /\
  debye_only (f_ph s) n "stuff" (Debye 1 [DPole 1 1]) q 3 2.
Proof. exact debye_case. Qed.
(** The same inside a TFSF source, after any number of updates: a rod of Debye material in tests/mie.cpp. *)
Example C44_tfsf_case n : (Z.of_nat n < 2147483647)%Z -> exists g tp s0 s s' k q, grid_ok g /\ mk_field g "mie.h5" = Ok s0 /\
  run (lit_rod tp n) s0 = Fine s /\ ph_tfsf (f_ph s) <> None /\ step_at g s s' 120 120 /\
  only_in (added (lit_rod tp n)) "glass" glass (g_dx g * IZR 120, g_dx g * IZR 120) /\
  debye_only (f_ph s) k "glass" (Debye 2 [DPole 1 1]) q 120 120.
Proof. exact (rim_case n). Qed.
Example C45_case : exists g s0 s s' n q, grid_ok g /\ mk_field g "out" = Ok s0 /\
  run (brick_cmds (KDrude metal1)) s0 = Fine s /\ step_at g s s' 3 2 /\
  only_in (added (brick_cmds (KDrude metal1))) "stuff" (KDrude metal1) (g_dx g * IZR 3, g_dx g * IZR 2) /\
  drude_only (f_ph s) n "stuff" metal1 q 3 2.
Proof. exact drude_case. Qed.
Example C46_case : exists g s0 s s' q, grid_ok g /\ mk_field g "out" = Ok s0 /\
  run (brick_cmds (KLorentz resonant)) s0 = Fine s /\ step_at g s s' 3 2 /\ lorentz_only (f_ph s) "stuff" resonant q 3 2.
Proof. exact lorentz_case. Qed.
Example C47_case : exists g s0 s s' n q, grid_ok g /\ mk_field g "out" = Ok s0 /\
  run (brick_cmds (KDebye two_poles)) s0 = Fine s /\ step_at g s s' 3 2 /\ debye_only (f_ph s) n "stuff" two_poles q 3 2.
Proof. exact poles_case. Qed.
Example C48_case : exists g s s1 s2 s2', apart g /\ reachable g s /\ ph_tfsf (f_ph s) = None /\
  exec (AddObject (far (KDrude metal1))) s = Fine s2 /\ update s = Fine s1 /\ update s2 = Fine s2' /\
  ~ in_obj (far (KDrude metal1)) (to_real g (3, 3)%Z) /\ Ez_at (f_ph s) 3 3 <> 0.
Proof. exact far_case. Qed.
Example C56_case : exists g s0 s, grid_ok g /\ mk_field g "out" = Ok s0 /\ run demo_cmds s0 = Fine s /\ names_agree (added demo_cmds) /\
  one_medium (added demo_cmds) (g_dx g * IZR 3, g_dx g * IZR 3) /\ owns (added demo_cmds) (g_dx g * IZR 3, g_dx g * IZR 3) chip.
Proof. exact traceless_case. Qed.
