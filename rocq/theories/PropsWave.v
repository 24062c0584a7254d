(** The wave and its boundary layer: C18, C21, C22 (exact real arithmetic). *)
From Coq Require Import ZArith Reals List Bool String Lia Lra.
From Verif Require Import SpecRim Scalar Base BaseFacts VecM GridM GeometryM MaterialM PmlM DftM TfsfM PolarM
  InterpM H5M ClockM MonitorM FieldM SpecGrid GridFacts OutFacts PhysFacts
  WfFacts ReachFacts SafetyFacts SpecSafety SafeFacts SpecStep StepFacts SpecSource SpecMedium SourceFacts SpecWave
  FullStep DarkFacts InnerFacts MemoryFacts ExampleFacts ExampleSrc WaveRun.
Import ListNotations.
Local Open Scope Z_scope.
#[local] Existing Instance RNum.

(** C18: whatever public calls were made (objects of any material, monitors, moves, output, any
    number of updates, even calls that threw and were caught), as long as no source and no TFSF
    was added all three fields, all PML memories and all polarisation currents are zero. *)
Theorem C18_dark_field_stays_dark : forall g s, reachable g s ->
  ph_srcs (f_ph s) = [] -> ph_tfsf (f_ph s) = None -> dark (f_ph s).
Proof. exact stays_dark. Qed.
Example C18_case n : (n < 1000)%nat -> exists (g : grid) s, reachable g s /\ ph_srcs (f_ph s) = [] /\ ph_tfsf (f_ph s) = None /\
  ph_objs (f_ph s) = [disk; chip] /\ ph_step (f_ph s) = Z.of_nat n.
Proof.
  intros Hn. destruct demo_run as (g & s0 & s & Eg & Hok & Hr & Nx & Ny & Hd & E0 & Er & Gd & M1 & M2 & K & S & St & Tf & Ob).
  assert (R : reachable g s) by (exists "out"%string, s0, demo_cmds; split; [exact E0|apply run_run_catch; exact Er]).
  destruct (update_safe g s n Hr R) as (s' & E & E2); auto; try (rewrite St; unfold INT_MIN, INT_MAX; lia).
  { unfold sources_inside. rewrite S, Tf. split; [intros ? []|discriminate]. } { unfold stopped. rewrite K. split; reflexivity. }
  exists g, s'. split; [now apply (run_reachable g s (repeat Update n))|].
  destruct grid8 as (g' & Eg' & _ & _ & _ & _ & _ & _ & Hp). rewrite Eg in Eg'. injection Eg' as <-.
  assert (Ha : apart g) by (unfold apart; lia).
  destruct (updates_keep g n s s' Ha R E) as (A & B & C). rewrite A. repeat split; auto. rewrite E2, St. lia.
Qed.

(** C21, coefficients: in every reachable state of every grid with pml_thickness >= 1 each
    recursion coefficient the update reads is absorbing (SpecWave). *)
Theorem C21_pml_coefficients_absorb : forall Lx Ly rs pml g, (0 < Lx)%R -> (0 < Ly)%R -> (0 < rs)%R -> 1 <= pml ->
  mk_grid Lx Ly rs pml = Ok g -> forall s, reachable g s -> all_absorbing (g_pml g) (med (f_ph s)).
Proof. exact coefs_absorbing. Qed.

(** C21, memories: if along a run no difference quotient of the fields exceeds M, no PML memory
    does; any number of steps, any calls in between. *)
Theorem C21_pml_memory_bounded : forall Lx Ly rs pml g, (0 < Lx)%R -> (0 < Ly)%R -> (0 < rs)%R -> 1 <= pml ->
  mk_grid Lx Ly rs pml = Ok g -> apart g -> forall M name s0 l s, (0 <= M)%R ->
  mk_field g name = Ok s0 -> run l s0 = Fine s ->
  (forall k sk, run (firstn k l) s0 = Fine sk -> slopes_of (f_ph sk) M) ->
  memory_within M (e_of (f_ph s)) (h_of (f_ph s)).
Proof. exact memory_bounded. Qed.
Example C21_case n : (n < 1000)%nat -> exists (g : grid) s0 s M, mk_grid 8%R 8%R 1%R 1 = Ok g /\ apart g /\ (0 <= M)%R /\
  mk_field g "out" = Ok s0 /\ run ([AddSource lamp; AddSource wire] ++ repeat Update n) s0 = Fine s /\ reachable g s /\
  ph_step (f_ph s) = Z.of_nat n /\
  forall k sk, run (firstn k ([AddSource lamp; AddSource wire] ++ repeat Update n)) s0 = Fine sk -> slopes_of (f_ph sk) M.
Proof.
  intros Hn. destruct (wave_run n Hn) as (g & s0 & s & s' & H1 & H2 & H3 & H4 & H5 & H6 & H7 & H8 & H9 & H10).
  destruct (run_bounded ([AddSource lamp; AddSource wire] ++ repeat Update n) s0) as (M & HM & K).
  exists g, s0, s, M. auto 10.
Qed.

(** C22, the corrections: whatever the fields and Cb (or Db) hold, pml::update_E (update_H)
    leaves every cell of grid.interior() as it is, in every reachable state. *)
Theorem C22_pml_E_leaves_interior : forall Lx Ly rs pml g, (0 < Lx)%R -> (0 < Ly)%R -> (0 < rs)%R -> 1 <= pml ->
  mk_grid Lx Ly rs pml = Ok g -> forall s Cb X Y E b' E', reachable g s ->
  pml_update_E (ph_pml (f_ph s)) Cb X Y E = Ok (b', E') ->
  forall i j, inner_Ez g i j -> tval E' i j = tval E i j.
Proof. exact pmlE_inner. Qed.
Theorem C22_pml_H_leaves_interior : forall Lx Ly rs pml g, (0 < Lx)%R -> (0 < Ly)%R -> (0 < rs)%R -> 1 <= pml ->
  mk_grid Lx Ly rs pml = Ok g -> forall s Db E X Y b' X' Y', reachable g s ->
  pml_update_H (ph_pml (f_ph s)) Db E X Y = Ok (b', X', Y') ->
  (forall i j, inner_Hx g i j -> tval X' i j = tval X i j) /\ (forall i j, inner_Hy g i j -> tval Y' i j = tval Y i j).
Proof. exact pmlH_inner. Qed.

(** C22, the interior: one update() gives each cell of grid.interior() the plain Yee value, unless
    a source drives it or the TFSF source corrects it; for Ez, without dispersive media. *)
Theorem C22_interior_is_plain_yee : forall Lx Ly rs pml g, (0 < Lx)%R -> (0 < Ly)%R -> (0 < rs)%R -> 1 <= pml ->
  mk_grid Lx Ly rs pml = Ok g -> forall s s', apart g -> reachable g s ->
  update s = Fine s' ->
  let ez := tval (fEz (ph_F (f_ph s))) in let hx := tval (fHx (ph_F (f_ph s))) in let hy := tval (fHy (ph_F (f_ph s))) in
  let ez' := tval (fEz (ph_F (f_ph s'))) in let hx' := tval (fHx (ph_F (f_ph s'))) in let hy' := tval (fHy (ph_F (f_ph s'))) in
  let md := med (f_ph s) in let t' := (ph_t (f_ph s) + g_dt g)%R in
  forall i j,
  (ph_debye (f_ph s) = [] -> ph_drude (f_ph s) = [] -> ph_lorentz (f_ph s) = [] ->
   inner_Ez g i j -> off_E (ph_tfsf (f_ph s)) i j -> undriven t' g (ph_srcs (f_ph s)) Ez i j ->
     ez' i j = (mCa md i j * ez i j + mCb md i j * ((hy i j - hy (i - 1)%Z j) + (hx i (j - 1)%Z - hx i j)) / g_dx g)%R) /\
  (inner_Hx g i j -> off_Hx (ph_tfsf (f_ph s)) i j -> undriven t' g (ph_srcs (f_ph s)) Hx i j ->
     hx' i j = (mDa md i j * hx i j - mDb md i j * (ez' i (j + 1)%Z - ez' i j) / g_dx g)%R) /\
  (inner_Hy g i j -> off_Hy (ph_tfsf (f_ph s)) i j -> undriven t' g (ph_srcs (f_ph s)) Hy i j ->
     hy' i j = (mDa md i j * hy i j + mDb md i j * (ez' (i + 1)%Z j - ez' i j) / g_dx g)%R).
Proof. exact yee_inner. Qed.
Example C22_case n : (n < 1000)%nat -> exists (g : grid) s s', mk_grid 8%R 8%R 1%R 1 = Ok g /\ apart g /\ reachable g s /\
  bare (f_ph s) /\ ph_step (f_ph s) = Z.of_nat n /\ update s = Fine s' /\
  inner_Ez g 4 4 /\ inner_Hx g 4 4 /\ inner_Hy g 4 4 /\
  (forall c, undriven (ph_t (f_ph s) + g_dt g)%R g (ph_srcs (f_ph s)) c 4 4).
Proof.
  intros Hn. destruct (wave_run n Hn) as (g & s0 & s & s' & H1 & H2 & H3 & H4 & H5 & H6 & H7 & H8 & H9 & H10).
  destruct grid8 as (g' & Eg' & _ & Nx & Ny & Dx & Lx & Ly & Hp). rewrite H1 in Eg'. injection Eg' as <-.
  exists g, s, s'. split; [exact H1|]. split; [exact H2|]. split; [exact H5|]. split; [exact H6|]. split; [exact H7|]. split; [exact H8|].
  assert (B : forall u v : R, (2 <= u <= 5)%R -> (2 <= v <= 5)%R -> inner g (g_dx g * u, g_dx g * v)%R).
  { intros u v Hu Hv. unfold inner, in_box, interior. cbn [mk_volume v_a v_b fst snd]. rewrite Dx, Lx, Ly, Hp. rnum. 
    cbn [fst snd]. change (IZR 2) with 2%R. lra. }
  split; [unfold inner_Ez; apply B; lra|]. split; [unfold inner_Hx; apply B; lra|]. split; [unfold inner_Hy; apply B; lra|].
  intros c. apply core_undriven; auto; lia.
Qed.

Print Assumptions C18_dark_field_stays_dark.
Print Assumptions C21_pml_coefficients_absorb.
Print Assumptions C21_pml_memory_bounded.
Print Assumptions C22_pml_E_leaves_interior.
Print Assumptions C22_pml_H_leaves_interior.
Print Assumptions C22_interior_is_plain_yee.
