(** A box monitor made around a rod; an ellipse whose bounding box is too large. *)
From Coq Require Import ZArith Reals Lra Lia String List Bool.
From Verif Require Import Scalar Base BaseFacts VecM GridM GeometryM MaterialM PmlM DftM TfsfM PolarM InterpM H5M ClockM MonitorM NamesM FieldM ReportM ShippedM
  OutFacts PhysFacts SpecGrid GridFacts SpecGeometry GeometryFacts SpecPaint PaintFacts SpecAround AroundFacts ShippedFacts PulseCase.
Import ListNotations.
Local Open Scope R_scope.
#[local] Existing Instance RNum.

Lemma around_case : exists g s0 s2 s3 tp, shipped_grid 8 = Ok g /\ mk_field g "scat.h5" = Ok s0 /\ let o := rod "object_0" "material_0" (KSimple (Simple 2 1 0)) in
  run [SetTfsf (around 60 60 65) tp; AddObject o] s0 = Fine s2 /\ nth_error (ph_objs (f_ph s2)) 0 = Some o /\ shape_ok (o_geom o) /\ plain_shape (o_geom o) (o_theta o) /\
  exec (GetBoxMonitor 0 "monitor_0" (frequencies 200) 1) s2 = Fine s3.
Proof.
  destruct (force_runs "object_0" "material_0" "monitor_0") as (g & s0 & l & s & Eg & E0 & El & E); [names|names|names|].
  unfold force_main in El. apply bind_ok in El. destruct El as (tp & Et & El). injection El as <-. cbn [app exec_main] in E.
  apply obind_fine in E. destruct E as (s1 & E1 & E). apply obind_fine in E. destruct E as (s2 & E2 & E). apply obind_fine in E. destruct E as (s3 & E3 & _). cbn [exec_call] in E1, E2, E3.
  set (o := rod "object_0" "material_0" (KSimple (Simple 2 1 0))). assert (Ru : run [SetTfsf (around 60 60 65) tp; AddObject o] s0 = Fine s2) by (cbn [run]; rewrite E1; cbn [obind]; etransitivity; [apply (f_equal (fun x => x >>= _) E2)|reflexivity]).
  assert (Ho : shape_ok (o_geom o)) by (cbn; rnum; lra).
  exists g, s0, s2, s3, tp. split; [exact Eg|]. split; [exact E0|]. cbv zeta. split; [exact Ru|]. split; [|split; [exact Ho|split; [cbn; rnum; lra|exact E3]]].
  assert (Ok : grid_ok g) by (apply (mk_grid_ok 120 120 2 8); try lra; exact Eg).
  destruct (painting_last_wins g "scat.h5" s0 [SetTfsf (around 60 60 65) tp; AddObject o] s2) as [-> _]; try assumption; try reflexivity. constructor; [exact Ho|constructor].
Qed.
Lemma turned_circle : ~ (forall (g : geometry) (pos : vec) th, shape_ok g -> match g with Cylinder r => 0 < r | Ellipse rx ry => 0 < rx /\ 0 < ry | Block d => 0 <= fst d /\ 0 <= snd d end ->
  tight (fun p => place_inside g pos th p = true) (v_a (place_box g pos th)) (v_b (place_box g pos th))).
Proof.
  intros H. destruct (H (Ellipse 1 1) (0, 0) (PI / 4)) as [_ K]; [cbn; lra|lra|]. destruct (K (1 / 4) ltac:(lra)) as (_ & (p & Ip & L) & _).
  apply place_inside_iff in Ip. destruct Ip as ((x & y) & Q & ->). unfold in_shape in Q. cbn [fst snd] in Q.
  unfold place_box, vol_translate, geom_box, stored_box, mk_volume, vadd, vdivs, vneg, vabs, vsub, rot in L. cbn [v_a v_b v_dim fst snd] in L. revert L. rnumg. change (@T RNum) with R.
  rewrite Rabs_Ropp, cos_PI4, sin_PI4. set (c := 1 / sqrt 2). assert (Sq : sqrt 2 * sqrt 2 = 2) by (apply sqrt_sqrt; lra). assert (Sp : 0 < sqrt 2) by (apply sqrt_lt_R0; lra).
  assert (Cc : c * c = 1 / 2) by (unfold c; field_simplify_eq; [nra|lra]). assert (Cp : 0 < c) by (unfold c; apply Rdiv_lt_0_compat; lra).
  rewrite (Rabs_pos_eq c) by lra. match goal with |- context [Rabs ?z] => replace (Rabs z) with 2 by (rewrite Rabs_left; lra) end. intros L.
  assert (C2 : 7 / 10 < c) by nra.
  assert (Qx : x * x + y * y < 1) by (unfold Rdiv in Q; rewrite Rinv_1, !Rmult_1_r in Q; cbn in Q; lra).
  assert (U : (c * x - c * y) * (c * x - c * y) + (c * x + c * y) * (c * x + c * y) < 1).
  { replace ((c * x - c * y) * (c * x - c * y) + (c * x + c * y) * (c * x + c * y)) with (2 * (c * c) * (x * x + y * y)) by ring. rewrite Cc. lra. }
  assert (V : 1 < c * x - c * y) by lra. assert (W := Rle_0_sqr (c * x + c * y)). unfold Rsqr in W. nra.
Qed.
Lemma plain_case : forall th, plain_shape (Block (4, 2)) th /\ plain_shape (Ellipse 3 1) (PI / 2).
Proof. intros th. cbn. rewrite cos_PI2. repeat split; lra. Qed.
