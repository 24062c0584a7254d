(** An example for plane waves: any wave on a grid with a lens beside it. *)
From Coq Require Import ZArith Reals String List Bool Lia Lra Psatz.
From Verif Require Import Scalar Base BaseFacts VecM GridM GeometryM MaterialM PmlM DftM TfsfM PolarM
  InterpM H5M ClockM MonitorM FieldM SpecGrid GridFacts OutFacts PhysFacts SpecGeometry GeometryFacts SpecPaint PaintFacts WfFacts ReachFacts InvFacts
  SpecStep StepFacts EngineFacts YeeFacts SpecWave DarkFacts SafeFacts ExampleFacts FlipRun SpecCone ConeFacts SpecRestart RestartMap RestartFacts RestartRun SpecTfsf TfsfFacts TfsfRun
  SpecEnergy EnergyFacts EnergyRun SpecPlane PlaneFacts.
Import ListNotations.
Local Open Scope Z_scope.
#[local] Existing Instance RNum.

Lemma beside_lens g i j : g_dx g = 1%R -> 7 <= i -> lens_eps g 4 i j = 1%R.
Proof.
  intros Dx Hi. unfold lens_eps. destruct (obj_inside _ _) eqn:E; [|reflexivity]. exfalso. apply obj_inside_iff in E.
  unfold in_obj, in_placed, lens in E. cbn [o_geom o_pos o_theta] in E. rewrite Dx in E. destruct E as ((u & v) & Hu & Ev).
  unfold in_shape, rot, vadd in Hu, Ev. cbn [fst snd] in Hu, Ev. injection Ev as E1 _. apply IZR_le in Hi. revert Hu E1 Hi. rnumg. change (@T RNum) with R. rewrite cos_0, sin_0. intros Hu E1 Hi. nra.
Qed.

Lemma plane_case n kx ky a phi : (n < 1000)%nat -> (0 < kx < PI)%R -> let N := 2 * Z.of_nat n + 20 in
  exists (g : grid) s w x, let P := Patch 7 (N - 4) 3 (N - 4) in
  let eps := lens_eps g 4 in let ez := wave_E w 0 in let hx := wave_Hx w 0 in let hy := wave_Hy w 0 in
  mk_grid (IZR N) (IZR N) 1%R 1 = Ok g /\ apart g /\ reachable g s /\ ph_srcs (f_ph s) = [] /\ ph_tfsf (f_ph s) = None /\
  (ph_debye (f_ph s) = [] /\ ph_drude (f_ph s) = [] /\ ph_lorentz (f_ph s) = []) /\
  Forall (fun o => clear_material (m_kind (o_mat o))) [lens 4] /\ grid_shows g [lens 4] vacuum (ph_C (f_ph s)) /\ permittivity g [lens 4] eps /\
  clear_patch g P /\ sin (w_om w / 2) <> 0%R /\ dispersion 1 w /\
  (forall i j, within P 0 i j -> eps i j = 1%R /\ ez i j = wave_E w 0 i j /\ hx i j = wave_Hx w 0 i j /\ hy i j = wave_Hy w 0 i j) /\
  run (repeat Update n) (poke ez hx hy s) = Fine x /\ within P n (Z.of_nat n + 9) (Z.of_nat n + 9) /\
  w_kx w = kx /\ w_ky w = ky /\ w_a w = a /\ w_phi w = phi.
Proof.
  intros Hn Hk N. destruct (lens_scene N 4) as (g & s0 & s & Eg & Hok & Ha & Nx & Ny & Dx & Hp & E0 & Rs & Hr & Mo & Tm & Ck & Sr & Np & Tf & Ba & Sh); [lia|lia|].
  destruct (frequency_exists 1 a phi kx ky) as (om & Ho & D); [lra|]. set (w := Wave a phi kx ky om) in *.
  destruct (reachable_good g s (apart_roomy g Ha) Hr) as [W G].
  destruct (updates_ok n (poke (wave_E w 0) (wave_Hx w 0) (wave_Hy w 0) s)) as (x & Ex & _).
  1-8: cbn [poke f_ph set_f_ph set_ph_F ph_grid ph_step f_mons f_tmons]; try assumption; rewrite ?G, ?Np; try (unfold INT_MIN, INT_MAX; lia); try (now apply apart_roomy).
  { destruct W; constructor; assumption. } { unfold placed; cbn; rewrite Sr, Tf; split; [constructor|discriminate]. } { unfold idle; cbn; rewrite Ck; cbn; auto. }
  exists g, s, w, x. cbv zeta. do 6 (split; [assumption|]). split; [constructor; [|constructor]; cbn; split; lra|]. split; [assumption|]. split; [apply lens_permits|].
  split; [unfold clear_patch; cbn [x0 x1 y0 y1]; lia|].
  split. { intros Z0. unfold dispersion in D. rewrite Z0 in D. cbn [w w_kx w_ky] in D. assert (0 < sin (kx / 2))%R by (apply sin_gt_0; lra). assert (0 <= sin (ky / 2) ^ 2)%R by apply pow2_ge_0. nra. }
  split; [exact D|]. split. { intros i j [Hi Hj]. cbn [x0 x1] in Hi. split; [apply beside_lens; [assumption|lia]|auto]. }
  split; [exact Ex|]. split; [unfold within; cbn [x0 x1 y0 y1]; lia|]. auto.
Qed.
