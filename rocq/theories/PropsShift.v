(** C86: outside the layers the program does not know where a cell is, nor how large the grid is. *)
From Coq Require Import ZArith Reals String List Bool Lia Lra.
From Verif Require Import Scalar Base VecM GridM GeometryM MaterialM PmlM DftM TfsfM PolarM InterpM H5M ClockM MonitorM FieldM
  SpecGrid GridFacts SpecPaint PaintFacts WfFacts ReachFacts StepFacts SpecSource SpecCone MirrorCase SpecShift ShiftFacts ShiftCase SpecScene SceneFacts SceneCase.
Import ListNotations.
Local Open Scope Z_scope.

(** Two simulations with the same cell size and time step, on any two grids and with any two layer
    thicknesses.  If the second shows the scene of the first moved by (a, b) cells in a square that
    lies outside both layers, then after n updates it still does in the square n cells smaller.  For
    every number system: bit for bit in doubles. *)
Theorem C86_moved : forall (N : Num) (g g' : grid) s1 s2 n s1' s2' a b d i j, apart g -> apart g' -> reachable g s1 -> reachable g' s2 ->
  g_dx g = g_dx g' -> g_dt g = g_dt g' -> ph_t (f_ph s1) = ph_t (f_ph s2) -> ph_tfsf (f_ph s1) = None -> ph_tfsf (f_ph s2) = None ->
  run (repeat Update n) s1 = Fine s1' -> run (repeat Update n) s2 = Fine s2' -> 0 <= d ->
  moved_near a b (f_ph s1) (f_ph s2) (d + Z.of_nat n) i j -> moved_near a b (f_ph s1') (f_ph s2') d i j.
Proof. exact @shift. Qed.
Print Assumptions C86_moved.

Example C86_case : forall n : nat, (n <= 10)%nat -> exists (g g' : @grid RNum) s1 s2 s1' s2', mk_grid 64%R 64%R 1%R 1 = Ok g /\ mk_grid 32%R 32%R 1%R 2 = Ok g' /\
  apart g /\ apart g' /\ reachable g s1 /\ reachable g' s2 /\ g_dx g = g_dx g' /\ g_dt g = g_dt g' /\ ph_t (f_ph s1) = ph_t (f_ph s2) /\
  ph_tfsf (f_ph s1) = None /\ ph_tfsf (f_ph s2) = None /\
  ph_srcs (f_ph s1) = [lamp_at 31 20 (/ 10)%R] /\ ph_srcs (f_ph s2) = [lamp_at 16 16 (/ 10)%R] /\
  run (repeat Update n) s1 = Fine s1' /\ run (repeat Update n) s2 = Fine s2' /\
  moved_near (-15) (-4) (f_ph s1) (f_ph s2) (1 + Z.of_nat n) 31 20.
Proof. exact shift_case. Qed.

(** A program that adds objects and sources and calls update(), in any order, and the same program with every
    object and source displaced by (a, b) cells, on another grid.  At a cell so far from both layers that
    light does not reach them in the updates of the program, the fields are displaced alike.  (Exact
    arithmetic: positions are compared with cell positions.) *)
Theorem C86_scene : forall (g g' : @grid RNum) name name' s0 s0' a b l l' s s' i j, apart g -> apart g' -> grid_ok g -> grid_ok g' ->
  g_dx g = g_dx g' -> g_dt g = g_dt g' -> mk_field g name = Ok s0 -> mk_field g' name' = Ok s0' ->
  Forall2 (moved_call (by_cells g a b)) l l' -> run l s0 = Fine s -> run l' s0' = Fine s' -> opens g g' a b (updates_in l) i j ->
  tval (fEz (ph_F (f_ph s))) i j = tval (fEz (ph_F (f_ph s'))) (i + a) (j + b) /\
  tval (fHx (ph_F (f_ph s))) i j = tval (fHx (ph_F (f_ph s'))) (i + a) (j + b) /\
  tval (fHy (ph_F (f_ph s))) i j = tval (fHy (ph_F (f_ph s'))) (i + a) (j + b).
Proof. exact scene. Qed.
Print Assumptions C86_scene.

(** a rod of water and a lamp beside it *)
Example C86_scene_case : forall n : nat, (n <= 9)%nat -> exists (g g' : @grid RNum) s0 s0' s s', mk_grid 64%R 64%R 1%R 1 = Ok g /\ mk_grid 36%R 36%R 1%R 3 = Ok g' /\
  apart g /\ apart g' /\ grid_ok g /\ grid_ok g' /\ g_dx g = g_dx g' /\ g_dt g = g_dt g' /\
  mk_field g "out" = Ok s0 /\ mk_field g' "out" = Ok s0' /\ Forall2 (moved_call (by_cells g (-13) (-13))) (rod_and_lamp 30 n) (rod_and_lamp 17 n) /\
  run (rod_and_lamp 30 n) s0 = Fine s /\ run (rod_and_lamp 17 n) s0' = Fine s' /\ opens g g' (-13) (-13) (updates_in (rod_and_lamp 30 n)) 32 30.
Proof. exact scene_case. Qed.
