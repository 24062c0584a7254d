(** Calls ended by an exception: C73, C74. *)
From Coq Require Import ZArith Reals Lra Lia String List Bool.
From Verif Require Import Scalar Base BaseFacts VecM GridM GeometryM MaterialM PmlM DftM TfsfM PolarM InterpM H5M ClockM MonitorM FieldM ReportM ShippedM
  SpecGrid GridFacts SpecGeometry SpecPaint SpecSafety SafeFacts SpecProgram ViewFacts WfFacts ReachFacts PaintFacts PaintSafe ExampleFacts SpecFile FileFacts SpecInterrupt InterruptFacts RetainFacts RetainCase TfsfRun.
Import ListNotations.

(** ** C73 *)
(** a call that returns has added its records to the file, and no other dataset *)
Theorem C73_writes : forall (N : Num) c (s s' : field), lasting c -> exec_call c s = Fine s' -> adds (f_h5 s) (writes s c) (f_h5 s').
Proof. exact @call_writes. Qed.
Print Assumptions C73_writes.
(** a call ended by an exception has added the first of them, in order, and nothing else *)
Theorem C73_interrupted : forall (N : Num) c (s : field) e s', lasting c -> exec_call c s = Raise e s' ->
  exists done todo, writes s c = (done ++ todo)%list /\ adds (f_h5 s) done (f_h5 s').
Proof. exact @interrupted_writes. Qed.
Print Assumptions C73_interrupted.

(** ** C74 *)
(** sources, monitors, time monitors, box monitors of objects and results: a call that raises changes at most the file *)
Theorem C74_unchanged_partial : forall (N : Num) c (s : field) e s', additive c -> exec_call c s = Raise e s' -> same_but_file s s'.
Proof. exact @raised_unchanged. Qed.
Print Assumptions C74_unchanged_partial.
(** add of an object: what stays *)
Theorem C74_object_partial : forall (N : Num) (o : obj) (s : field) e s', exec (AddObject o) s = Raise e s' ->
  f_mons s' = f_mons s /\ f_tmons s' = f_tmons s /\ f_clk s' = f_clk s /\ ph_F (f_ph s') = ph_F (f_ph s) /\ ph_objs (f_ph s') = ph_objs (f_ph s) /\
  ph_srcs (f_ph s') = ph_srcs (f_ph s) /\ ph_tfsf (f_ph s') = ph_tfsf (f_ph s) /\ ph_t (f_ph s') = ph_t (f_ph s) /\ ph_step (f_ph s') = ph_step (f_ph s).
Proof. exact @raised_object. Qed.
Print Assumptions C74_object_partial.
(** set_tfsf: nothing but the source itself *)
Theorem C74_tfsf_partial : forall (N : Num) v tp (s : field) e s', exec (SetTfsf v tp) s = Raise e s' ->
  f_mons s' = f_mons s /\ f_tmons s' = f_tmons s /\ f_mats s' = f_mats s /\ f_clk s' = f_clk s /\
  (f_ph s' = f_ph s \/ exists q, q_vol q = v /\ q_tp q = tp /\ f_ph s' = set_ph_tfsf (Some q) (f_ph s)).
Proof. exact @raised_tfsf. Qed.
Print Assumptions C74_tfsf_partial.

Local Open Scope R_scope.
#[local] Existing Instance RNum.
(** an object under a name that is taken is refused, and yet its cells get its material, though no object of the list is there *)
Theorem C74_object_refuted : forall (g : grid) s (o o' : obj) s1, grid_ok g -> roomy g -> reachable g s -> exec (AddObject o) s = Fine s1 ->
  clash (Do (AddObject o)) (Do (AddObject o')) -> m_name (o_mat o') = m_name (o_mat o) -> shape_ok (o_geom o') ->
  in_box (v_a (domain g)) (v_b (domain g)) (v_a (obj_box o')) -> in_box (v_a (domain g)) (v_b (domain g)) (v_b (obj_box o')) ->
  exists s2, exec (AddObject o') s1 = Raise H5Error s2 /\ ph_objs (f_ph s2) = ph_objs (f_ph s1) /\
    forall i j, in_grid (g_Nx g) (g_Ny g) (i, j) -> in_obj o' (g_dx g * IZR i, g_dx g * IZR j) -> cell (ph_C (f_ph s2)) i j = mat_cell (m_kind (o_mat o')) (g_dt g).
Proof. exact rejected_object_painted. Qed.
Print Assumptions C74_object_refuted.
(** a second total-field source is refused, and yet it takes the place of the first *)
Theorem C74_tfsf_refuted : forall (g : grid) s v tp s1 v' tp', grid_ok g -> (g_Nx g <= 46341)%Z -> (g_Ny g <= 46341)%Z -> tfsf_region g v' -> ph_grid (f_ph s1) = g -> exec (SetTfsf v tp) s = Fine s1 ->
  exists s2 q, exec (SetTfsf v' tp') s1 = Raise H5Error s2 /\ ph_tfsf (f_ph s2) = Some q /\ q_vol q = v' /\ q_tp q = tp'.
Proof. exact second_tfsf_replaces. Qed.
Print Assumptions C74_tfsf_refuted.

(** ** Cases *)
(** an object whose material is new, under a taken name: the parameters of the material come first *)
Example C73_case : exists (g : grid) s s1 s2 e, reachable g s /\ exec (AddObject disk) s = Fine s1 /\ lasting (Do (AddObject disk)) /\ lasting (Do (AddObject disk3)) /\
  exec_call (Do (AddObject disk3)) s1 = Raise e s2 /\ writes s1 (Do (AddObject disk3)) = (material_record (o_mat disk3) ++ object_record disk3)%list.
Proof. exact brass_case. Qed.
(** a disk, and another one under its name, of another glass, which shows at the cell (5, 5) outside the first *)
Example C74_case : exists (g : grid) s s1 s2, grid_ok g /\ roomy g /\ reachable g s /\ exec (AddObject disk) s = Fine s1 /\ clash (Do (AddObject disk)) (Do (AddObject disk2)) /\
  m_name (o_mat disk2) = m_name (o_mat disk) /\ shape_ok (o_geom disk2) /\
  in_box (v_a (domain g)) (v_b (domain g)) (v_a (obj_box disk2)) /\ in_box (v_a (domain g)) (v_b (domain g)) (v_b (obj_box disk2)) /\
  exec (AddObject disk2) s1 = Raise H5Error s2 /\ in_grid (g_Nx g) (g_Ny g) (5, 5)%Z /\ in_obj disk2 (g_dx g * IZR 5, g_dx g * IZR 5) /\ ~ in_obj disk (g_dx g * IZR 5, g_dx g * IZR 5).
Proof. exact painted_case. Qed.
(** a source added twice *)
Example C74_source_case : exists g tp s0 s1 s2 e, mk_grid 120 120 2 5 = Ok g /\ mk_field g "out.h5" = Ok s0 /\ let c := AddSource (Source "lamp" Ez (SPoint (point 30 30)) tp) in
  exec c s0 = Fine s1 /\ additive (Do c) /\ exec_call (Do c) s1 = Raise e s2.
Proof. exact lamp_case. Qed.
(** a second plane wave *)
Example C74_tfsf_case : exists (g : grid) s0 s1 s2 e, grid_ok g /\ (g_Nx g <= 46341)%Z /\ (g_Ny g <= 46341)%Z /\ mk_field g "out" = Ok s0 /\ ph_grid (f_ph s1) = g /\
  tfsf_region g pane /\ exec (SetTfsf pane sun) s0 = Fine s1 /\ exec (SetTfsf pane wind) s1 = Raise e s2.
Proof. exact wind_case. Qed.
