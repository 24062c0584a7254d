(** Cases of rejected calls. *)
From Coq Require Import ZArith Reals Lra Lia String List Bool.
From Verif Require Import Scalar Base BaseFacts VecM GridM GeometryM MaterialM PmlM DftM TfsfM PolarM InterpM H5M ClockM MonitorM FieldM ReportM ShippedM
  OutFacts SpecGrid GridFacts SpecGeometry SpecPaint SpecSafety SafeFacts SpecProgram ViewFacts WfFacts ReachFacts PaintFacts PaintSafe ExampleFacts SpecFile FileFacts
  SpecInterrupt InterruptFacts RetainFacts TfsfFacts TfsfRun PulseCase.
Import ListNotations.
Local Open Scope R_scope.
#[local] Existing Instance RNum.

(** two more objects named disk: of another glass, and of a new material *)
Definition disk2 : obj := Obj "disk" false (Cylinder 1) (Material "glass" (KSimple (Simple 4 1 0))) (5, 5) 0.
Definition disk3 : obj := Obj "disk" false (Cylinder 1) (Material "brass" (KDrude (Drude 1 [UPole 1 0]))) (5, 5) 0.
Lemma disk2_box : v_a (obj_box disk2) = (4, 4) /\ v_b (obj_box disk2) = (6, 6).
Proof.
  unfold obj_box, place_box, disk2. cbn [o_geom o_pos o_theta geom_box stored_box vol_translate mk_volume v_a v_b].
  unfold vadd. cbn [fst snd]. split; apply injective_projections; cbn [fst snd]; rnumg; lra.
Qed.
Lemma two_disks : exists (g : grid) s0 s1, grid_ok g /\ roomy g /\ g_Nx g = 8%Z /\ g_Ny g = 8%Z /\ g_dx g = 1 /\ mk_field g "out" = Ok s0 /\ reachable g s0 /\ exec (AddObject disk) s0 = Fine s1 /\ reachable g s1 /\
  in_box (v_a (domain g)) (v_b (domain g)) (v_a (obj_box disk2)) /\ in_box (v_a (domain g)) (v_b (domain g)) (v_b (obj_box disk2)).
Proof.
  destruct demo_run as (g & s0 & s & Eg & Hok & Hr & Nx & Ny & Hdx & E0 & Er & _). unfold demo_cmds in Er. cbn [run] in Er. apply obind_fine in Er. destruct Er as (s1 & E1 & _).
  assert (R0 : reachable g s0) by (exists "out"%string, s0, []; auto).
  exists g, s0, s1. do 8 (split; [assumption|]). split; [exists "out"%string, s0, [AddObject disk]; split; [exact E0|]; cbn [run_catch]; rewrite E1; reflexivity|].
  destruct disk2_box as [-> ->]. destruct Hok as (_ & _ & _ & HL & HL' & _). unfold in_box, domain. cbn [mk_volume v_a v_b fst snd]. rewrite HL, HL', Nx, Ny, Hdx. rnumg. lra.
Qed.
Lemma painted_case : exists (g : grid) s s1 s2, grid_ok g /\ roomy g /\ reachable g s /\ exec (AddObject disk) s = Fine s1 /\ clash (Do (AddObject disk)) (Do (AddObject disk2)) /\
  m_name (o_mat disk2) = m_name (o_mat disk) /\ shape_ok (o_geom disk2) /\
  in_box (v_a (domain g)) (v_b (domain g)) (v_a (obj_box disk2)) /\ in_box (v_a (domain g)) (v_b (domain g)) (v_b (obj_box disk2)) /\
  exec (AddObject disk2) s1 = Raise H5Error s2 /\ in_grid (g_Nx g) (g_Ny g) (5, 5)%Z /\ in_obj disk2 (g_dx g * IZR 5, g_dx g * IZR 5) /\ ~ in_obj disk (g_dx g * IZR 5, g_dx g * IZR 5).
Proof.
  destruct two_disks as (g & s0 & s1 & Hok & Hr & Nx & Ny & Hdx & E0 & R0 & E1 & R1 & B1 & B2).
  assert (C : clash (Do (AddObject disk)) (Do (AddObject disk2))) by (constructor; cbn; auto).
  assert (Sh : shape_ok (o_geom disk2)) by (cbn; rnum; lra).
  destruct (rejected_object_painted g s0 disk disk2 s1 Hok Hr R0 E1 C eq_refl Sh B1 B2) as (s2 & E2 & _).
  exists g, s0, s1, s2. do 5 (split; [assumption|]). split; [reflexivity|]. do 4 (split; [assumption|]).
  rewrite Nx, Ny, Hdx. replace (1 * IZR 5) with 5 by (cbn; lra). split; [unfold in_grid; cbn; lia|]. split; [|apply disk_inside].
  unfold in_obj, in_placed, disk2. cbn [o_geom o_pos o_theta]. exists (0, 0). unfold in_shape, rot, vadd. cbn [fst snd]. rnumg. split; [lra|apply injective_projections; cbn [fst snd]; rnumg; ring].
Qed.
Lemma brass_case : exists (g : grid) s s1 s2 e, reachable g s /\ exec (AddObject disk) s = Fine s1 /\ lasting (Do (AddObject disk)) /\ lasting (Do (AddObject disk3)) /\
  exec_call (Do (AddObject disk3)) s1 = Raise e s2 /\ writes s1 (Do (AddObject disk3)) = (material_record (o_mat disk3) ++ object_record disk3)%list.
Proof.
  destruct two_disks as (g & s0 & s1 & Hok & Hr & Nx & Ny & Hdx & E0 & R0 & E1 & R1 & B1 & B2).
  assert (C : clash (Do (AddObject disk)) (Do (AddObject disk3))) by (constructor; cbn; auto).
  assert (Nf := names_once _ s0 s1 [] s1 _ C E1 eq_refl). assert (Nu := fun u => add_reachable_defined g disk3 s1 u Hok Hr R1 B1 B2).
  assert (M := RecordFacts.exec_mats _ _ _ E1). destruct (exec_call (Do (AddObject disk3)) s1) as [s2|e s2|u] eqn:E2; [exfalso; eapply Nf; reflexivity| |exfalso; eapply Nu; exact E2].
  exists g, s0, s1, s2, e. do 2 (split; [assumption|]). do 2 (split; [exact Logic.I|]). split; [exact E2|].
  unfold writes. rewrite M. assert (F : f_mats s0 = []) by (unfold mk_field in E0; inv_ok; cbn [String.eqb] in *; inv_ok; reflexivity). rewrite F. reflexivity.
Qed.
(** another plane wave in the same region *)
Definition wind : tprofile := TProfile (Continuous (/ 4)) None.
Lemma wind_case : exists (g : grid) s0 s1 s2 e, grid_ok g /\ (g_Nx g <= 46341)%Z /\ (g_Ny g <= 46341)%Z /\ mk_field g "out" = Ok s0 /\ ph_grid (f_ph s1) = g /\
  tfsf_region g pane /\ exec (SetTfsf pane sun) s0 = Fine s1 /\ exec (SetTfsf pane wind) s1 = Raise e s2.
Proof.
  destruct (tfsf_case 0 ltac:(lia)) as (g & s0 & s1 & s & Eg & E0 & _ & E1 & _ & Ta & Tb & Cl & _).
  assert (Hok : grid_ok g) by (apply (mk_grid_ok 8 8 1 1); try lra; exact Eg). destruct grid8 as (g' & Eg' & _ & Nx & Ny & _). rewrite Eg in Eg'. injection Eg' as <-.
  assert (Rg : tfsf_region g pane) by (exists (3, 3)%Z, (4, 4)%Z; rewrite Nx, Ny; cbn [fst snd]; repeat split; auto; lia).
  assert (Hr : reachable g s1).
  { exists "out"%string, s0, [SetTfsf pane sun]. split; [exact E0|]. cbn [run_catch]; rewrite E1; reflexivity. }
  assert (Gg : ph_grid (f_ph s1) = g). { apply (reachable_good g s1); [apply StepFacts.apart_roomy|]; auto. unfold StepFacts.apart. destruct grid8 as (g2 & Eg2 & _ & _ & _ & _ & _ & _ & Hp). rewrite Eg in Eg2. injection Eg2 as <-. lia. }
  destruct (second_tfsf_replaces g s0 pane sun s1 pane wind Hok) as (s2 & q & E2 & _); try assumption; try (rewrite ?Nx, ?Ny; lia).
  exists g, s0, s1, s2, H5Error. rewrite Nx, Ny. repeat split; auto; try lia; apply Hok.
Qed.
Lemma lamp_case : exists g tp s0 s1 s2 e, mk_grid 120 120 2 5 = Ok g /\ mk_field g "out.h5" = Ok s0 /\ let c := AddSource (Source "lamp" Ez (SPoint (point 30 30)) tp) in
  exec c s0 = Fine s1 /\ additive (Do c) /\ exec_call (Do c) s1 = Raise e s2.
Proof.
  destruct (pulse_case 0 ltac:(lia)) as (g & tp & s0 & s1 & _ & _ & Eg & _ & E0 & _ & E1 & _). cbn [run] in E1. apply obind_fine in E1. destruct E1 as (a & E1 & Ea). injection Ea as ->.
  set (c := AddSource (Source "lamp" Ez (SPoint (point 30 30)) tp)) in *.
  assert (Nf := names_once _ s0 s1 [] s1 _ (cl_source (Source "lamp" Ez (SPoint (point 30 30)) tp) (Source "lamp" Ez (SPoint (point 30 30)) tp) eq_refl Logic.I) E1 eq_refl).
  exists g, tp, s0, s1. destruct (exec_call (Do c) s1) as [s2|e s2|u] eqn:E2; [exfalso; apply (Nf s2); exact E2| |].
  - exists s2, e. cbv zeta. repeat split; auto.
  - exfalso. cbn [exec_call exec c] in E2. unfold c, add_source, prim in E2. destruct (write_src _ _) as [f|e|u'] eqn:Ew; try discriminate. eapply h5_ops_no_ub. exact Ew.
Qed.
