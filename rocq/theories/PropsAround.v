(** Box monitors around objects and the size of bounding boxes: C67, C68. *)
From Coq Require Import ZArith Reals String List Bool.
From Verif Require Import Scalar Base VecM GridM GeometryM MaterialM PmlM DftM TfsfM PolarM InterpM H5M ClockM MonitorM FieldM ShippedM
  SpecGrid SpecGeometry SpecAround AroundFacts EllipseFacts AroundCase.
Import ListNotations.
Local Open Scope R_scope.
#[local] Existing Instance RNum.

(** ** C67 *)
(** whatever happened before: get_box_monitor adds one box monitor of the given name and
    frequencies and changes nothing else of the simulation; its sides are a closed outward line
    with every point of the object, as it stands now, at least the margin inside *)
Theorem C67_surrounds : forall i name freq b s s' o, nth_error (ph_objs (f_ph s)) i = Some o -> shape_ok (o_geom o) -> (0 < b)%Z ->
  exec (GetBoxMonitor i name freq b) s = Fine s' ->
  exists m, f_ph s' = f_ph s /\ f_mons s' = f_mons s ++ [MBox m] /\ bm_name m = name /\ bm_freq m = freq /\
    surrounds (fun p => obj_inside o p = true) (IZR b) (map sm_surf (bm_sides m)).
Proof. exact box_surrounds. Qed.
Print Assumptions C67_surrounds.
(** and the object comes as close as the margin to every side *)
Theorem C67_no_further : forall i name freq b s s' o, nth_error (ph_objs (f_ph s)) i = Some o -> plain_shape (o_geom o) (o_theta o) -> (0 < b)%Z ->
  exec (GetBoxMonitor i name freq b) s = Fine s' ->
  exists m, f_mons s' = f_mons s ++ [MBox m] /\ reaches (fun p => obj_inside o p = true) (IZR b) (map sm_surf (bm_sides m)).
Proof. exact box_reaches. Qed.
Print Assumptions C67_no_further.
Example C67_case : exists g s0 s2 s3 tp, shipped_grid 8 = Ok g /\ mk_field g "scat.h5" = Ok s0 /\ let o := rod "object_0" "material_0" (KSimple (Simple 2 1 0)) in
  run [SetTfsf (around 60 60 65) tp; AddObject o] s0 = Fine s2 /\ nth_error (ph_objs (f_ph s2)) 0 = Some o /\ shape_ok (o_geom o) /\ plain_shape (o_geom o) (o_theta o) /\
  exec (GetBoxMonitor 0 "monitor_0" (frequencies 200) 1) s2 = Fine s3.
Proof. exact around_case. Qed.

(** ** C68 *)
(** a circle given as an ellipse and turned by 45 degrees: the box is wider by the factor sqrt 2 *)
Theorem C68_refuted : ~ (forall (g : geometry) (pos : vec) th, shape_ok g ->
  match g with Cylinder r => 0 < r | Ellipse rx ry => 0 < rx /\ 0 < ry | Block d => 0 <= fst d /\ 0 <= snd d end ->
  tight (fun p => place_inside g pos th p = true) (v_a (place_box g pos th)) (v_b (place_box g pos th))).
Proof. exact turned_circle. Qed.
Print Assumptions C68_refuted.
(** cylinders, blocks however turned, and ellipses along the axes *)
Theorem C68_tight_partial : forall (g : geometry) (pos : vec) th, plain_shape g th ->
  tight (fun p => place_inside g pos th p = true) (v_a (place_box g pos th)) (v_b (place_box g pos th)).
Proof. exact plain_tight. Qed.
Print Assumptions C68_tight_partial.
Example C68_case : forall th, plain_shape (Block (4, 2)) th /\ plain_shape (Ellipse 3 1) (PI / 2).
Proof. exact plain_case. Qed.
(** the smallest box around an ellipse at any angle, in closed form *)
Theorem C68_ellipse_partial : forall rx ry px py th, rx <> 0 -> ry <> 0 ->
  let w := sqrt ((rx * cos th) * (rx * cos th) + (ry * sin th) * (ry * sin th)) in
  let h := sqrt ((rx * sin th) * (rx * sin th) + (ry * cos th) * (ry * cos th)) in
  tight (fun p => place_inside (Ellipse rx ry) (px, py) th p = true) (px - w, py - h) (px + w, py + h).
Proof. exact ellipse_smallest. Qed.
Print Assumptions C68_ellipse_partial.
(** the code's box is that one exactly at the quarter turns *)
Theorem C68_quarter_turns_partial : forall rx ry pos th, rx <> 0 -> ry <> 0 ->
  (tight (fun p => place_inside (Ellipse rx ry) pos th p = true) (v_a (place_box (Ellipse rx ry) pos th)) (v_b (place_box (Ellipse rx ry) pos th)) <->
   sin th = 0 \/ cos th = 0).
Proof. exact ellipse_tight_iff. Qed.
Print Assumptions C68_quarter_turns_partial.
(** and is never longer than the smallest one by more than sqrt 2 *)
Theorem C68_slack_partial : forall rx ry px py th a b, rx <> 0 -> ry <> 0 ->
  tight (fun p => place_inside (Ellipse rx ry) (px, py) th p = true) a b ->
  let v := place_box (Ellipse rx ry) (px, py) th in
  fst (v_b v) - fst (v_a v) <= sqrt 2 * (fst b - fst a) /\ snd (v_b v) - snd (v_a v) <= sqrt 2 * (snd b - snd a).
Proof. exact ellipse_slack. Qed.
Print Assumptions C68_slack_partial.
Example C68_ellipse_case : 3 <> 0 /\ 1 <> 0 /\ ~ (sin (PI / 4) = 0 \/ cos (PI / 4) = 0).
Proof. exact ellipse_turned. Qed.
