(** C25: clear_fields() and update_material_grid() against a fresh simulation. *)
From Coq Require Import ZArith Reals List String.
From Verif Require Import Scalar Base VecM GridM GeometryM MaterialM PmlM DftM TfsfM PolarM InterpM H5M ClockM
  MonitorM FieldM SpecStep StepFacts SourceFacts SpecCone SpecRestart ExampleFacts RestartFacts RestartRun SpecTfsf TfsfRun.
Import ListNotations.
Local Open Scope Z_scope.

(** Full statement (false, see C25_restart_refuted): the theorem below without nothing_left.
    Missing here: histories that left something in the PML memories or, with Lorentz media, in
    the last copy of Ez.  A TFSF source is set again with the same box and pulse; its frequencies
    may differ. *)
Theorem C25_restart_partial : forall (N : Num) n g name s0 l s s1 sf s1' sf' srcs tfs i j,
  apart g -> mk_field g name = Ok s0 -> run l s0 = Fine s -> nothing_left (f_ph s) ->
  map src_core srcs = map src_core (ph_srcs (f_ph s)) ->
  run [ClearFields; UpdateMaterialGrid] s = Fine s1 ->
  same_tfsf (ph_tfsf (f_ph s)) tfs ->
  run ((map AddObject (ph_objs (f_ph s)) ++ map AddSource srcs) ++ tfs) s0 = Fine sf ->
  run (repeat Update n) s1 = Fine s1' -> run (repeat Update n) sf = Fine sf' ->
  0 <= i < g_Nx g -> 0 <= j < g_Ny g ->
  agree_field (f_ph s1') (f_ph sf') i j.
Proof. exact @restart. Qed.
Print Assumptions C25_restart_partial.

(** a glass disk, a movable metal chip and a lamp that has shone for a step *)
Example C25_case : forall n, (n < 1000)%nat -> exists (g : grid) s0 l s s1 sf s1' sf',
  mk_grid 8%R 8%R 1%R 1 = Ok g /\ apart g /\ mk_field g "out" = Ok s0 /\ run l s0 = Fine s /\ ph_tfsf (f_ph s) = None /\ nothing_left (f_ph s) /\
  map src_core [demo_lamp] = map src_core (ph_srcs (f_ph s)) /\
  run [ClearFields; UpdateMaterialGrid] s = Fine s1 /\
  run (map AddObject (ph_objs (f_ph s)) ++ map AddSource [demo_lamp]) s0 = Fine sf /\
  run (repeat Update n) s1 = Fine s1' /\ run (repeat Update n) sf = Fine sf' /\
  l = [AddObject disk; AddObject chip; AddSource demo_lamp; Update] /\ tval (fEz (ph_F (f_ph s))) 3 3 = 1%R.
Proof. exact restart_case. Qed.

(** a TFSF source that has shone for three steps *)
Example C25_tfsf_case : forall n, (n < 1000)%nat -> exists (g : grid) s0 s s1 sf s1' sf',
  mk_grid 8%R 8%R 1%R 1 = Ok g /\ apart g /\ mk_field g "out" = Ok s0 /\
  run [SetTfsf pane sun; Update; Update; Update] s0 = Fine s /\ nothing_left (f_ph s) /\
  ph_srcs (f_ph s) = [] /\ ph_objs (f_ph s) = [] /\ same_tfsf (ph_tfsf (f_ph s)) [SetTfsf pane sun] /\
  run [ClearFields; UpdateMaterialGrid] s = Fine s1 /\ run [SetTfsf pane sun] s0 = Fine sf /\
  run (repeat Update n) s1 = Fine s1' /\ run (repeat Update n) sf = Fine sf' /\
  tval (fEz (ph_F (f_ph s))) 3 3 = (/ 16)%R.
Proof. exact restart_tfsf_case. Qed.

(** Over the reals already: a lamp inside the layer shines for one step; after clear_fields() and
    update_material_grid() the next step gives another Hx than the first step of a fresh
    simulation, because the PML memories were not cleared. *)
Theorem C25_restart_refuted : exists (g : grid) s0 l s s1 sf s1' sf',
  mk_grid 8%R 8%R 1%R 1 = Ok g /\ apart g /\ mk_field g "out" = Ok s0 /\ run l s0 = Fine s /\ ph_tfsf (f_ph s) = None /\
  map src_core [bulb 1 1] = map src_core (ph_srcs (f_ph s)) /\
  run [ClearFields; UpdateMaterialGrid] s = Fine s1 /\
  run (map AddObject (ph_objs (f_ph s)) ++ map AddSource [bulb 1 1]) s0 = Fine sf /\
  run (repeat Update 1) s1 = Fine s1' /\ run (repeat Update 1) sf = Fine sf' /\
  l = [AddSource (bulb 1 1); Update] /\ ~ agree_field (f_ph s1') (f_ph sf') 1 1.
Proof. exact restart_fails. Qed.
Print Assumptions C25_restart_refuted.
