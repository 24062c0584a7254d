(** A Debye rod and a lamp beside it, in two grids. *)
From Coq Require Import ZArith Reals List Bool String Lia Lra.
From Verif Require Import Scalar Base BaseFacts VecM GridM GeometryM MaterialM PmlM DftM TfsfM PolarM
  InterpM H5M ClockM MonitorM FieldM SpecGrid GridFacts SpecGeometry GeometryFacts OutFacts PhysFacts SpecPaint PaintFacts
  WfFacts ReachFacts SafetyFacts SpecSafety SafeFacts SpecStep StepFacts EngineFacts YeeFacts TextbookFacts SpecSource SourceFacts ExampleFacts ExampleSrc MemoryFacts SumRun
  SpecLoss LossCase MirrorCase SpecShift SpecScene.
Import ListNotations.
Local Open Scope Z_scope.
#[local] Existing Instance RNum.

Lemma grid_sized N k : 8 <= N <= 1000000 -> exists g : grid, mk_grid (IZR N) (IZR N) 1%R k = Ok g /\ grid_ok g /\ g_Nx g = N /\ g_Ny g = N /\
  g_dx g = 1%R /\ g_dt g = (/ 2)%R /\ g_Lx g = (IZR N - 1)%R /\ g_Ly g = (IZR N - 1)%R /\ g_pml g = k + 1.
Proof.
  intros HN. assert (H8 : (8 <= IZR N <= 1000000)%R) by (split; apply IZR_le; lia).
  destruct (mk_grid_spec (IZR N) (IZR N) 1 k) as [g [E H]]; try lra.
  { unfold INT_MAX. lra. } { unfold INT_MAX. lra. }
  destruct H as (H1 & H2 & _ & Hd & Hp & HL & HLy & _ & _ & _ & Ht & Hm).
  exists g. split; [exact E|].
  assert (Nx : g_Nx g = N).
  { assert (N <= g_Nx g < N + 1); [|lia]. split; [apply le_IZR|apply lt_IZR; rewrite plus_IZR]; lra. }
  assert (Ny : g_Ny g = N).
  { assert (N <= g_Ny g < N + 1); [|lia]. split; [apply le_IZR|apply lt_IZR; rewrite plus_IZR]; lra. }
  split; [eapply mk_grid_ok; [| | |exact E]; lra|].
  assert (D1 : g_dx g = 1%R) by lra. rewrite Nx in HL. rewrite Ny in HLy. split; [exact Nx|]. split; [exact Ny|]. split; [assumption|].
  change (@T RNum) with R in *. split; [lra|]. split; [rewrite HL, D1; ring|]. split; [rewrite HLy, D1; ring|lia].
Qed.

Definition water : mat_kind := KDebye (Debye 2%R [DPole 1%R 1%R]).
(** a rod of water at (c, c) lit by a lamp four cells to its right *)
Definition rod_and_lamp (c : Z) (n : nat) : list cmd := [AddObject (drop water c); AddSource (lamp_at (c + 4) c (/ 10)%R)] ++ repeat Update n.

Lemma rod_runs (g : grid) N c n : grid_ok g -> apart g -> g_Nx g = N -> g_Ny g = N -> g_dx g = 1%R -> g_Lx g = (IZR N - 1)%R -> g_Ly g = (IZR N - 1)%R ->
  16 <= N <= 1000000 -> 4 <= c < N - 6 -> (n < 1000)%nat -> exists s0 s, mk_field g "out" = Ok s0 /\ run (rod_and_lamp c n) s0 = Fine s.
Proof.
  intros Hok Ha Nx Ny Hdx HLx HLy HN Hc Hn. assert (Hr := apart_roomy g Ha).
  destruct (mk_field_fresh g "out" Hr) as (p & Ep & E0); [discriminate|].
  destruct (mk_phys_ok g Hr) as (p' & Ep' & Hw & Gp & Sp & Tp & Op & Np). rewrite Ep in Ep'. injection Ep' as <-.
  assert (Hc' : (4 <= IZR c <= IZR N - 6)%R) by (rewrite <- minus_IZR; split; apply IZR_le; lia).
  destruct (paint_in_domain g (drop water c) (ph_C p) Hok) as [c1 Ec1].
  { rewrite <- Gp. apply (wf_C p Hw). }
  { rewrite (proj1 (drop_box water c)). unfold in_box, domain. cbn [mk_volume v_a v_b fst snd]. rewrite HLx, HLy. rnumg. change (@T RNum) with R. lra. }
  { rewrite (proj2 (drop_box water c)). unfold in_box, domain. cbn [mk_volume v_a v_b fst snd]. rewrite HLx, HLy. rnumg. change (@T RNum) with R. lra. }
  assert (H1 : exists f1, write_mat (fresh_h5 g) (o_mat (drop water c)) = Ok f1 /\ exists f2, write_obj f1 (drop water c) = Ok f2 /\ exists f3, foldM write_src f2 [lamp_at (c + 4) c (/ 10)%R] = Ok f3).
  { eexists. split; [reflexivity|]. eexists. split; [reflexivity|]. eexists. reflexivity. }
  destruct H1 as (f1 & H1 & f2 & H2 & f3 & H3).
  set (s0 := Field p [] [] [] (fresh_h5 g) mk_clocks) in *.
  destruct (add_object_fine (drop water c) s0 f1 f2 c1) as (s1 & E1 & F1 & M1 & Mo1 & T1 & K1 & G1 & O1 & S1 & N1 & Q1); auto.
  { cbn [s0 f_ph]. now rewrite Gp. } { cbn [s0 f_ph]. rewrite Gp. lia. } { cbn [s0 f_ph]. rewrite Gp. lia. }
  assert (R0 : reachable g s0) by (exists "out"%string, s0, []; split; [exact E0|reflexivity]).
  assert (R1 : run [AddObject (drop water c)] s0 = Fine s1) by (cbn [run exec]; rewrite E1; reflexivity).
  rewrite <- F1 in H3. assert (A := add_run [lamp_at (c + 4) c (/ 10)%R] s1 f3 H3). set (s2 := map_ph _ _) in A.
  assert (R2 : reachable g s2) by (apply (run_reachable g s1 (map AddSource [lamp_at (c + 4) c (/ 10)%R])); [exact (run_reachable g s0 _ s1 R0 R1)|exact A]).
  cbn [s0 f_ph f_mons f_tmons f_clk] in Mo1, T1, K1, G1, S1, N1, Q1.
  destruct (update_safe g s2 n Hr R2) as (s & E2 & _).
  - split; cbn [s2 f_ph map_ph set_f_ph set_f_h5 set_ph_srcs ph_srcs ph_tfsf]; [|rewrite Q1, Tp; discriminate]. rewrite S1, Sp. cbn [app]. intros r' [<-|[]]. split; [now left|].
    exists (c + 4, c). cbn [s2 f_ph map_ph set_f_ph set_f_h5 set_ph_srcs ph_grid]. rewrite G1, Gp. split; [apply to_grid_int; [exact Hdx|unfold is_int32; lia|unfold is_int32; lia]|].
    split; cbn; lia.
  - unfold stopped. cbn. rewrite K1. split; reflexivity.
  - exact Mo1.
  - exact T1.
  - cbn. rewrite N1, Np. unfold INT_MIN. lia.
  - cbn. rewrite N1, Np. unfold INT_MAX. lia.
  - exists s0, s. split; [exact E0|]. unfold rod_and_lamp. change [AddObject (drop water c); AddSource (lamp_at (c + 4) c (/ 10)%R)] with ([AddObject (drop water c)] ++ map AddSource [lamp_at (c + 4) c (/ 10)%R]).
    rewrite !run_app, R1. cbn [obind]. rewrite A. exact E2.
Qed.

Lemma rod_moved (g : grid) n : g_dx g = 1%R -> Forall2 (moved_call (by_cells g (-13) (-13))) (rod_and_lamp 30 n) (rod_and_lamp 17 n).
Proof.
  intros D. unfold rod_and_lamp, by_cells. rewrite D. constructor; [|constructor].
  - apply MObj; [cbn; rnumg; lra|]. repeat split. cbn. unfold vadd. cbn [fst snd]. rnumg. change (@T RNum) with R. f_equal; lra.
  - apply MSrc; [|repeat split; cbn; unfold vadd; cbn [fst snd]; rnumg; change (@T RNum) with R; f_equal; lra].
    cbn. intros p [<-|[<-|[]]]; cbn; lra.
  - induction n as [|n IH]; constructor; [constructor|exact IH].
Qed.

Lemma scene_case (n : nat) : (n <= 9)%nat -> exists (g g' : grid) s0 s0' s s', mk_grid 64%R 64%R 1%R 1 = Ok g /\ mk_grid 36%R 36%R 1%R 3 = Ok g' /\
  apart g /\ apart g' /\ grid_ok g /\ grid_ok g' /\ g_dx g = g_dx g' /\ g_dt g = g_dt g' /\
  mk_field g "out" = Ok s0 /\ mk_field g' "out" = Ok s0' /\ Forall2 (moved_call (by_cells g (-13) (-13))) (rod_and_lamp 30 n) (rod_and_lamp 17 n) /\
  run (rod_and_lamp 30 n) s0 = Fine s /\ run (rod_and_lamp 17 n) s0' = Fine s' /\ opens g g' (-13) (-13) (updates_in (rod_and_lamp 30 n)) 32 30.
Proof.
  intros Hn. destruct (grid_sized 64 1) as (g & Eg & Hok & Nx & Ny & Dx & Dt & Lx & Ly & Hp); [lia|].
  destruct (grid_sized 36 3) as (g' & Eg' & Hok' & Nx' & Ny' & Dx' & Dt' & Lx' & Ly' & Hp'); [lia|].
  assert (Ha : apart g) by (unfold apart; lia). assert (Hb : apart g') by (unfold apart; lia).
  destruct (rod_runs g 64 30 n) as (s0 & s & E0 & R); try assumption; try lia. destruct (rod_runs g' 36 17 n) as (s0' & s' & E0' & R'); try assumption; try lia.
  exists g, g', s0, s0', s, s'. repeat (split; [first [assumption|congruence]|]). split; [now apply rod_moved|].
  split; [exact R|]. split; [exact R'|].
  assert (U : updates_in (rod_and_lamp 30 n) = Z.of_nat n).
  { unfold updates_in, rod_and_lamp. cbn [app filter]. f_equal. clear. induction n as [|m IH]; [reflexivity|]. cbn [repeat filter List.length]. now rewrite IH. }
  rewrite U. intros x y Hx Hy. unfold open. lia.
Qed.
