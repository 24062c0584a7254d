(** Whole programs: C61, C62. *)
From Coq Require Import ZArith Reals Lra Lia String List Bool.
From Verif Require Import Scalar Base BaseFacts VecM GridM GeometryM MaterialM PmlM DftM TfsfM PolarM InterpM H5M ClockM MonitorM NamesM FieldM ReportM ShippedM
  SpecGrid SpecClock SpecSafety SpecLive SpecProgram GridFacts ProgFacts ShippedFacts.
Import ListNotations.
Local Open Scope R_scope.
#[local] Existing Instance RNum.

(** ** C61 *)
(** a program that uses every name once, keeps its regions in the grid and writes every result
    once runs to its end: no exception, no undefined behaviour *)
Theorem C61_programs_run : forall Lx Ly rs pml g name s0 l, 0 < Lx -> 0 < Ly -> 0 < rs ->
  mk_grid Lx Ly rs pml = Ok g -> big_enough g -> (g_Nx g <= 46341)%Z -> (g_Ny g <= 46341)%Z ->
  mk_field g name = Ok s0 -> well_formed g blank l -> exists s, exec_main l s0 = Fine s.
Proof. intros Lx Ly rs pml g name s0 l H1 H2 H3 E. exact (programs_run g name s0 l (mk_grid_ok Lx Ly rs pml g H1 H2 H3 E)). Qed.
Print Assumptions C61_programs_run.
(** a program with twenty-five calls of twenty-two kinds *)
Example C61_case : exists g tp s0, mk_grid 120 120 2 5 = Ok g /\ big_enough g /\ (g_Nx g <= 46341)%Z /\ (g_Ny g <= 46341)%Z /\ mk_field g "out.h5" = Ok s0 /\
  tp_with_freq (pulse 100 80) [1] = Ok tp /\ well_formed g blank
  [Do (AddObject mover); Do (Move 0 (1, 0)); Do (Rotate 0 1); Do (SetPosition 0 (50, 60)); Do (SetTheta 0 2); Do UpdateMaterialGrid; Do ClearMaterials;
   Do (AddSource (Source "lamp" Ez (SPoint (point 30 30)) (TProfile (pulse 200 80) None))); Do (SetTfsf (around 60 60 65) tp);
   Do (AddMonitor (circle "ring" 25)); Do (AddTimeMonitor (TMon "view" (TPoint (point 30 40)) Ez (mk_every 1) [])); Do Update; Do (WriteField Hx); Do WriteE; Do WriteH;
   Do (WriteMonitor 0); Do (WriteTimeMonitor 0); Do (WriteCurrent 0); Report 0 QFlux; ReportTfsf; WriteMonitorCall; Do ClearFields; Do RemoveMonitors; Report 0 QFlux; Do Update].
Proof.
  destruct tour_rules as (g & tp & G & Et & W). destruct (ship 5 g "out.h5" (tour tp) G) as (s0 & s & E0 & _); [discriminate|exact W|].
  exists g, tp, s0. split; [apply G|]. split; [apply G|]. split; [rewrite (g_n1 _ _ G); lia|]. split; [rewrite (g_n2 _ _ G); lia|]. auto.
Qed.
(** the force program, with a box made around the object *)
Example C61_force : exists g l, mk_grid 120 120 2 8 = Ok g /\ force_main "object_0" "material_0" "monitor_0" = Ok l /\ well_formed g blank l.
Proof. destruct (force_rules "object_0" "material_0" "monitor_0") as (g & l & G & E & W); [names|names|names|]. exists g, l. split; [apply G|auto]. Qed.

(** ** C62 *)
(** tests/simple.cpp *)
Theorem C62_simple : forall src, proper src ->
  exists g s0 l s, shipped_grid 20 = Ok g /\ mk_field g "out.h5" = Ok s0 /\ simple_main src = Ok l /\ exec_main l s0 = Fine s.
Proof. exact simple_runs. Qed.
Print Assumptions C62_simple.
(** tests/main.cpp *)
Theorem C62_main : forall src, proper src ->
  exists g s0 l s, shipped_grid 10 = Ok g /\ mk_field g "out.h5" = Ok s0 /\ emag_main src = Ok l /\ exec_main l s0 = Fine s.
Proof. exact emag_runs. Qed.
Print Assumptions C62_main.
(** tests/mie.cpp *)
Theorem C62_mie : forall ob mat view, proper ob -> proper mat -> proper view -> ~ In view ["Ez"; "Hx"; "Hy"]%string ->
  exists g s0 l s, shipped_grid 5 = Ok g /\ mk_field g "scat.h5" = Ok s0 /\ mie_main ob mat view = Ok l /\ exec_main l s0 = Fine s.
Proof. exact mie_runs. Qed.
Print Assumptions C62_mie.
(** tests/mie/mie.cpp *)
Theorem C62_mie_simple : forall ob mat, proper ob -> proper mat ->
  exists g s0 l s, shipped_grid 8 = Ok g /\ mk_field g "scat.h5" = Ok s0 /\ mie_simple_main ob mat = Ok l /\ exec_main l s0 = Fine s.
Proof. exact mie_simple_runs. Qed.
Print Assumptions C62_mie_simple.
(** tests/drude/mie.cpp *)
Theorem C62_mie_drude : forall ob mat omega gamma, proper ob -> proper mat ->
  exists g s0 l s, shipped_grid 8 = Ok g /\ mk_field g "scat.h5" = Ok s0 /\ mie_drude_main ob mat omega gamma = Ok l /\ exec_main l s0 = Fine s.
Proof. exact mie_drude_runs. Qed.
Print Assumptions C62_mie_drude.
(** tests/force/force.cpp *)
Theorem C62_force : forall ob mat box, proper ob -> proper mat -> proper box ->
  exists g s0 l s, shipped_grid 8 = Ok g /\ mk_field g "scat.h5" = Ok s0 /\ force_main ob mat box = Ok l /\ exec_main l s0 = Fine s.
Proof. exact force_runs. Qed.
Print Assumptions C62_force.
(** the names the counters give meet the hypotheses *)
Example C62_names : exists a b c d k1 k2 k3 k4, create FObject None counters0 = Ok (a, k1) /\ create FMaterial None counters0 = Ok (b, k2) /\
  create FSource None counters0 = Ok (c, k3) /\ create FTimeMonitor None counters0 = Ok (d, k4) /\
  proper a /\ proper b /\ proper c /\ proper d /\ ~ In d ["Ez"; "Hx"; "Hy"]%string.
Proof. do 8 eexists. do 4 (split; [reflexivity|]). repeat split; try discriminate; cbn; intuition discriminate. Qed.
