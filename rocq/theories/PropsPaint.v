(** Properties of material painting: C10, C11, C13 (objects). *)
From Coq Require Import ZArith Reals List Bool String Lia Psatz.
From Verif Require Import Scalar Base BaseFacts VecM GridM GeometryM MaterialM PmlM DftM TfsfM PolarM
  InterpM H5M ClockM MonitorM FieldM SpecGrid GridFacts SpecGeometry GeometryFacts OutFacts PhysFacts
  SpecPaint PaintFacts WfFacts ReachFacts ExampleFacts PaintSafe BackFacts.
Import ListNotations.
Local Open Scope R_scope.
#[local] Existing Instance RNum.

(** C10: any program on a fresh field that adds objects (and does anything else except
    moving objects or wiping the materials) *)
Theorem C10_last_object_wins : forall (g : grid) fname s0 l s,
  grid_ok g -> mk_field g fname = Ok s0 -> run l s0 = Fine s ->
  forallb (fun c => negb (repositions c)) l = true ->
  Forall (fun o => shape_ok (o_geom o)) (added l) ->
  ph_objs (f_ph s) = added l /\ grid_shows g (added l) vacuum (ph_C (f_ph s)).
Proof. exact painting_last_wins. Qed.
Print Assumptions C10_last_object_wins.
(** every point has exactly one material, so [grid_shows] fixes every cell *)
Theorem C10_material_defined : forall os bg p,
  (exists k, material_at os bg p k) /\
  (forall k k', material_at os bg p k -> material_at os bg p k' -> k = k').
Proof. exact (fun os bg p => conj (material_at_exists os bg p) (material_at_unique os bg p)). Qed.
Print Assumptions C10_material_defined.
(** a cell outside every object has the coefficients of the lossless vacuum: E keeps its value, and curls enter with the time step *)
Theorem C10_background : forall (g : grid) fname s0 l s i j,
  grid_ok g -> mk_field g fname = Ok s0 -> run l s0 = Fine s ->
  forallb (fun c => negb (repositions c)) l = true ->
  Forall (fun o => shape_ok (o_geom o)) (added l) ->
  in_grid (g_Nx g) (g_Ny g) (i, j) -> (forall o, In o (added l) -> ~ in_obj o (g_dx g * IZR i, g_dx g * IZR j)) ->
  cell (ph_C (f_ph s)) i j = (1, g_dt g, 1, g_dt g).
Proof. exact background_cell. Qed.
Print Assumptions C10_background.
(** a glass disk, then a metal block over part of it: cell (3,2) is glass, cell (4,4) is metal *)
Example C10_case : exists (g : grid) s0 s, grid_ok g /\ mk_field g "out" = Ok s0 /\
  run demo_cmds s0 = Fine s /\ forallb (fun c => negb (repositions c)) demo_cmds = true /\
  Forall (fun o => shape_ok (o_geom o)) (added demo_cmds) /\
  in_grid (g_Nx g) (g_Ny g) (4, 4)%Z /\ g_dx g = 1 /\
  material_at (added demo_cmds) vacuum (4, 4) (m_kind (o_mat chip)).
Proof.
  destruct demo_run as (g & s0 & s & Eg & Hok & Hr & Nx & Ny & Hdx & E0 & E1 & _).
  exists g, s0, s. repeat (split; [assumption|]). split; [reflexivity|].
  split. { constructor; [cbn; lra|]. constructor; [exact I|constructor]. }
  split; [rewrite Nx, Ny; unfold in_grid; cbn; lia|]. split; [exact Hdx|].
  left. exists [disk], chip, []. split; [reflexivity|]. split; [|split; [intros o []|reflexivity]].
  exists (0, 0). unfold in_shape, chip. cbn [o_geom o_pos o_theta fst snd]. rewrite Rabs_R0.
  split; [rnumg; lra|]. unfold vadd, rot. cbn [fst snd]. rnumg. f_equal; ring.
Qed.
Example C10_background_case : exists (g : grid) s0 s, grid_ok g /\ mk_field g "out" = Ok s0 /\
  run demo_cmds s0 = Fine s /\ in_grid (g_Nx g) (g_Ny g) (0, 0)%Z /\ added demo_cmds = [disk; chip] /\
  (forall o, In o (added demo_cmds) -> ~ in_obj o (g_dx g * IZR 0, g_dx g * IZR 0)).
Proof. exact background_case. Qed.

(** C11 *)
Theorem C11_rebuild_from_current_poses : forall (g : grid) fname s0 l s s',
  grid_ok g -> mk_field g fname = Ok s0 -> run l s0 = Fine s ->
  Forall (fun o => shape_ok (o_geom o)) (ph_objs (f_ph s)) ->
  exec UpdateMaterialGrid s = Fine s' ->
  ph_objs (f_ph s') = ph_objs (f_ph s) /\ grid_shows g (ph_objs (f_ph s)) vacuum (ph_C (f_ph s')) /\
  ph_F (f_ph s') = ph_F (f_ph s) /\ ph_srcs (f_ph s') = ph_srcs (f_ph s) /\
  ph_t (f_ph s') = ph_t (f_ph s) /\ ph_step (f_ph s') = ph_step (f_ph s).
Proof. exact repaint_from_poses. Qed.
Print Assumptions C11_rebuild_from_current_poses.
Theorem C11_rebuild_equals_fresh : forall (g : grid) fname s0 l s s' fname' s0' s'',
  grid_ok g -> mk_field g fname = Ok s0 -> run l s0 = Fine s ->
  Forall (fun o => shape_ok (o_geom o)) (ph_objs (f_ph s)) ->
  exec UpdateMaterialGrid s = Fine s' ->
  mk_field g fname' = Ok s0' -> run (map AddObject (ph_objs (f_ph s))) s0' = Fine s'' ->
  forall i j, in_grid (g_Nx g) (g_Ny g) (i, j) -> cell (ph_C (f_ph s')) i j = cell (ph_C (f_ph s'')) i j.
Proof. exact repaint_same_as_fresh. Qed.
Print Assumptions C11_rebuild_equals_fresh.
Example C11_case : exists (g : grid) s0 s s', grid_ok g /\ mk_field g "out" = Ok s0 /\
  run (demo_cmds ++ [Move 1 (1, 0)]) s0 = Fine s /\ exec UpdateMaterialGrid s = Fine s' /\
  Forall (fun o => shape_ok (o_geom o)) (ph_objs (f_ph s)) /\
  ph_objs (f_ph s) = [disk; obj_move (1, 0) chip].
Proof. exact demo_moved. Qed.

(** C13, adding objects: safe when the object's box is in the domain, undefined otherwise *)
Theorem C13_add_object_partial : forall (g : grid) (o : obj) s u,
  grid_ok g -> roomy g -> reachable g s ->
  in_box (v_a (domain g)) (v_b (domain g)) (v_a (obj_box o)) ->
  in_box (v_a (domain g)) (v_b (domain g)) (v_b (obj_box o)) ->
  exec (AddObject o) s <> Undef u.
Proof. exact add_reachable_defined. Qed.
Print Assumptions C13_add_object_partial.
Theorem C13_add_object_refuted : exists (g : grid) s0 u,
  mk_grid 8 8 1 1 = Ok g /\ mk_field g "out" = Ok s0 /\ exec (AddObject stray) s0 = Undef u.
Proof. exact stray_undefined. Qed.
Print Assumptions C13_add_object_refuted.
Example C13_add_case : exists (g : grid) s, grid_ok g /\ roomy g /\ reachable g s /\
  in_box (v_a (domain g)) (v_b (domain g)) (v_a (obj_box chip)) /\
  in_box (v_a (domain g)) (v_b (domain g)) (v_b (obj_box chip)).
Proof.
  destruct demo_run as (g & s0 & s & Eg & Hok & Hr & Nx & Ny & Hdx & E0 & _).
  exists g, s0. split; [exact Hok|]. split; [exact Hr|]. split; [exists "out"%string, s0, []; auto|].
  destruct chip_box as [-> ->]. destruct Hok as (_ & _ & _ & HL & HL' & _).
  unfold in_box, domain. cbn [mk_volume v_a v_b fst snd]. rewrite HL, HL', Nx, Ny, Hdx. rnumg. lra.
Qed.
