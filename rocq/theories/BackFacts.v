(** The background medium. *)
From Coq Require Import ZArith Reals List Bool String Lia Lra.
From Verif Require Import Scalar Base BaseFacts VecM GridM GeometryM MaterialM PmlM DftM TfsfM PolarM
  InterpM H5M ClockM MonitorM FieldM SpecGrid GridFacts SpecGeometry SpecPaint PaintFacts ExampleFacts.
Import ListNotations.
Local Open Scope R_scope.
#[local] Existing Instance RNum.

Lemma background_cell (g : grid) fname s0 l s i j :
  grid_ok g -> mk_field g fname = Ok s0 -> run l s0 = Fine s ->
  forallb (fun c => negb (repositions c)) l = true ->
  Forall (fun o => shape_ok (o_geom o)) (added l) ->
  in_grid (g_Nx g) (g_Ny g) (i, j) -> (forall o, In o (added l) -> ~ in_obj o (g_dx g * IZR i, g_dx g * IZR j)) ->
  cell (ph_C (f_ph s)) i j = (1, g_dt g, 1, g_dt g).
Proof.
  intros Hg H0 Hr Hl Hs Hi Ho. destruct (painting_last_wins g fname s0 l s Hg H0 Hr Hl Hs) as [_ Sh].
  rewrite (Sh i j vacuum Hi); [|right; split; [exact Ho|reflexivity]].
  unfold mat_cell, vacuum, mat_Ca, mat_Cb, mat_Da, mat_Db, simple_Ca, simple_Cb. cbn [sm_eps sm_conduc]. rnum. change (@T RNum) with R in *.
  repeat f_equal; field.
Qed.

Lemma background_case : exists (g : grid) s0 s, grid_ok g /\ mk_field g "out" = Ok s0 /\
  run demo_cmds s0 = Fine s /\ in_grid (g_Nx g) (g_Ny g) (0, 0)%Z /\ added demo_cmds = [disk; chip] /\
  (forall o, In o (added demo_cmds) -> ~ in_obj o (g_dx g * IZR 0, g_dx g * IZR 0)).
Proof.
  destruct demo_run as (g & s0 & s & Eg & Hok & Hr & Nx & Ny & Hdx & E0 & E1 & _).
  exists g, s0, s. split; [exact Hok|]. split; [exact E0|]. split; [exact E1|]. split; [rewrite Nx, Ny; unfold in_grid; cbn [fst snd]; lia|]. split; [reflexivity|].
  rewrite Hdx. intros o [<-|[<-|[]]] (q & Hq & E); unfold vadd, rot in E; cbn [disk chip o_geom o_pos o_theta in_shape fst snd] in *; rewrite cos_0, sin_0 in E; rnum; injection E as E2 E3; destruct q as [x y]; cbn [fst snd] in *.
  - assert (x = -3) by lra. assert (y = -3) by lra. subst. lra.
  - assert (x = -4) by lra. subst. destruct Hq as [Hq _]. rewrite Rabs_left in Hq by lra. lra.
Qed.
