(** A lamp in a grid of 64 by 64 cells and the same lamp in one of 32 by 32 with thicker layers. *)
From Coq Require Import ZArith Reals List Bool String Lia Lra.
From Verif Require Import Scalar Base BaseFacts VecM GridM GeometryM MaterialM PmlM DftM TfsfM PolarM
  InterpM H5M ClockM MonitorM FieldM SpecGrid GridFacts OutFacts PhysFacts PaintFacts
  WfFacts ReachFacts SafetyFacts SpecSafety SafeFacts SpecStep StepFacts EngineFacts YeeFacts TextbookFacts SpecSource SourceFacts ExampleFacts ExampleSrc MemoryFacts
  FullStep SpecWave DarkFacts SpecTfsf TfsfFacts SpecCone ConeFacts ConeRun FlipRun MirrorCase SpecShift ShiftFacts.
Import ListNotations.
Local Open Scope Z_scope.
#[local] Existing Instance RNum.

Lemma grid_32 : exists g : grid, mk_grid 32%R 32%R 1%R 2 = Ok g /\ grid_ok g /\ g_Nx g = 32 /\ g_Ny g = 32 /\ g_dx g = 1%R /\ g_dt g = (/ 2)%R /\ g_pml g = 3.
Proof.
  destruct (mk_grid_spec 32 32 1 2) as [g [E H]]; try lra; try (unfold INT_MAX; lra).
  destruct H as (H1 & H2 & _ & Hd & Hp & HL & HLy & _ & _ & _ & Ht & Hm). exists g. split; [exact E|].
  assert (Nx : g_Nx g = 32) by (assert (31 < g_Nx g <= 32); [|lia]; split; [apply lt_IZR|apply Z.lt_succ_r, lt_IZR; rewrite succ_IZR]; lra).
  assert (Ny : g_Ny g = 32) by (assert (31 < g_Ny g <= 32); [|lia]; split; [apply lt_IZR|apply Z.lt_succ_r, lt_IZR; rewrite succ_IZR]; lra).
  split; [eapply mk_grid_ok; [| | |exact E]; lra|]. repeat split; try lra; try lia.
Qed.

Lemma lamps_moved (g g' : grid) p q i j i' j' f x y : apart g -> apart g' -> g_dx g = 1%R -> g_dx g' = 1%R -> g_dt g = g_dt g' -> mk_phys g = Ok p -> mk_phys g' = Ok q ->
  is_int32 i -> is_int32 j -> is_int32 i' -> is_int32 j' -> 0 <= x < g_Nx g -> 0 <= y < g_Ny g -> 0 <= x + (i' - i) < g_Nx g' -> 0 <= y + (j' - j) < g_Ny g' ->
  moved_cell (set_ph_srcs [lamp_at i j f] p) (set_ph_srcs [lamp_at i' j' f] q) x y (x + (i' - i)) (y + (j' - j)).
Proof.
  intros Ha Hb Dx Dx' Dt P1 P2 Ii Ij Ii' Ij' Hx Hy Hx' Hy'. assert (Hr := apart_roomy _ Ha). assert (Hr' := apart_roomy _ Hb).
  destruct (mk_phys_ok g Hr) as (p1 & Ep & _ & Gp & _). rewrite P1 in Ep. injection Ep as <-.
  destruct (mk_phys_ok g' Hr') as (q1 & Eq & _ & Gq & _). rewrite P2 in Eq. injection Eq as <-.
  destruct (fresh_state g p Hr P1) as (D & (B1 & B2 & B3 & B4) & F1 & F2 & F3 & F4).
  destruct (fresh_state g' q Hr' P2) as (D' & (B1' & B2' & B3' & B4') & F1' & F2' & F3' & F4').
  destruct D, D'. unfold z2 in *.
  constructor; cbn [set_ph_srcs ph_grid ph_F ph_C ph_pml ph_debye ph_drude ph_lorentz ph_prevE ph_prev2E ph_srcs].
  - now rewrite d_E, d_X, d_Y, d_E0, d_X0, d_Y0.
  - assert (Y1 := F4 x y Hx Hy). assert (Y2 := F4' _ _ Hx' Hy'). rewrite <- Dt in Y2. rewrite <- Y1 in Y2. unfold gcell in Y2.
    injection Y2 as Z1 Z2 Z3 Z4. auto.
  - rewrite B1, B1'. constructor.
  - rewrite B2, B2'. constructor.
  - rewrite B3, B3'. constructor.
  - rewrite F1, F1'. exact I.
  - rewrite F2, F2'. exact I.
  - rewrite Gp, Gq. intros Ls Ls' K K' t c z. apply lamp_list in K, K'; try assumption. rewrite K, K', !lamp_lit.
    replace (i' =? x + (i' - i)) with (i =? x) by lia. replace (j' =? y + (j' - j)) with (j =? y) by lia. reflexivity.
Qed.

Lemma shift_case (n : nat) : (n <= 10)%nat -> exists (g g' : grid) s1 s2 s1' s2', mk_grid 64%R 64%R 1%R 1 = Ok g /\ mk_grid 32%R 32%R 1%R 2 = Ok g' /\
  apart g /\ apart g' /\ reachable g s1 /\ reachable g' s2 /\ g_dx g = g_dx g' /\ g_dt g = g_dt g' /\ ph_t (f_ph s1) = ph_t (f_ph s2) /\
  ph_tfsf (f_ph s1) = None /\ ph_tfsf (f_ph s2) = None /\
  ph_srcs (f_ph s1) = [lamp_at 31 20 (/ 10)%R] /\ ph_srcs (f_ph s2) = [lamp_at 16 16 (/ 10)%R] /\
  run (repeat Update n) s1 = Fine s1' /\ run (repeat Update n) s2 = Fine s2' /\
  moved_near (-15) (-4) (f_ph s1) (f_ph s2) (1 + Z.of_nat n) 31 20.
Proof.
  intros Hn. destruct grid_64 as (g & Eg & Hok & Nx & Ny & Dx & Dt & Hp). assert (Ha : apart g) by (unfold apart; lia).
  destruct grid_32 as (g' & Eg' & Hok' & Nx' & Ny' & Dx' & Dt' & Hp'). assert (Hb : apart g') by (unfold apart; lia).
  destruct (lamp_run g 31 20 (/ 10)%R Ha Dx ltac:(lia) ltac:(lia) ltac:(unfold is_int32; lia) ltac:(unfold is_int32; lia) n ltac:(lia)) as (p & s1 & s1' & P1 & E1 & R1 & U1).
  destruct (lamp_run g' 16 16 (/ 10)%R Hb Dx' ltac:(lia) ltac:(lia) ltac:(unfold is_int32; lia) ltac:(unfold is_int32; lia) n ltac:(lia)) as (q & s2 & s2' & P2 & E2 & R2 & U2).
  assert (Hr := apart_roomy _ Ha). assert (Hr' := apart_roomy _ Hb).
  destruct (mk_phys_ok g Hr) as (p1 & Ep & _ & Gp & _ & Tp & _). rewrite P1 in Ep. injection Ep as <-.
  destruct (mk_phys_ok g' Hr') as (q1 & Eq & _ & Gq & _ & Tq & _). rewrite P2 in Eq. injection Eq as <-.
  destruct (fresh_state g p Hr P1) as (_ & _ & _ & _ & T0 & _). destruct (fresh_state g' q Hr' P2) as (_ & _ & _ & _ & T0' & _).
  exists g, g', s1, s2, s1', s2'. rewrite E1, E2. cbn [set_ph_srcs ph_t ph_tfsf ph_srcs].
  repeat (split; [first [assumption|congruence|reflexivity]|]). intros x y Hx Hy. cbn [set_ph_srcs ph_grid]. rewrite Gp, Gq.
  split; [unfold open; lia|]. split; [unfold open; lia|]. change (-15) with (16 - 31). change (-4) with (16 - 20).
  apply (lamps_moved g g'); try assumption; try congruence; try (unfold is_int32; lia); lia.
Qed.
