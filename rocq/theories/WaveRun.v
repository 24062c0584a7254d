(** A run with a point and a line source and any number of updates, for the examples. *)
From Coq Require Import ZArith Reals List Bool String Lia Lra.
From Verif Require Import Scalar Base BaseFacts VecM GridM GeometryM MaterialM PmlM DftM TfsfM PolarM
  InterpM H5M ClockM MonitorM FieldM SpecGrid GridFacts OutFacts PhysFacts
  WfFacts ReachFacts SafetyFacts SpecSafety SafeFacts SpecStep StepFacts SpecSource SourceFacts SpecMedium FullStep ExampleFacts ExampleSrc SpecWave MemoryFacts.
Import ListNotations.
Local Open Scope Z_scope.
#[local] Existing Instance RNum.

Lemma bare_updates g n : forall s s', apart g -> reachable g s -> bare (f_ph s) -> run (repeat Update n) s = Fine s' ->
  bare (f_ph s') /\ map src_core (ph_srcs (f_ph s')) = map src_core (ph_srcs (f_ph s)).
Proof.
  induction n as [|n IH]; intros s s' Ha Hr Hb H; cbn [repeat run exec] in H; [injection H as <-; auto|].
  apply obind_fine in H. destruct H as (s1 & H1 & H).
  assert (R1 : reachable g s1). { apply (run_reachable g s [Update]); [exact Hr|]. cbn [run exec]. rewrite H1. reflexivity. }
  destruct (reachable_good g s (apart_roomy _ Ha) Hr) as [Hw Eg].
  apply update_phys_step in H1.
  destruct (full_step (f_ph s) (f_ph s1)) as (E0 & E1 & E2 & E3 & Ls & u & h & CW); [rewrite Eg; exact Ha|exact Hw|exact H1|]. destruct CW.
  destruct Hb as (B1 & B2 & B3 & B4). rewrite B1 in cw_debye. rewrite B2 in cw_drude. rewrite B3 in cw_lorentz. cbn [polar_all] in *.
  injection cw_debye as K1 _. injection cw_drude as K2 _. injection cw_lorentz as K3 _. unfold line in cw_line. rewrite B4 in cw_line. injection cw_line as K4.
  destruct (IH s1 s' Ha R1) as [A B]; [unfold bare; auto|exact H|]. split; [exact A|congruence].
Qed.

Lemma wave_run n : (n < 1000)%nat -> exists (g : grid) s0 s s', mk_grid 8%R 8%R 1%R 1 = Ok g /\ apart g /\
  mk_field g "out" = Ok s0 /\ run ([AddSource lamp; AddSource wire] ++ repeat Update n) s0 = Fine s /\ reachable g s /\
  bare (f_ph s) /\ ph_step (f_ph s) = Z.of_nat n /\ update s = Fine s' /\ g_dx g = 1%R /\
  map src_core (ph_srcs (f_ph s)) = map src_core [lamp; wire].
Proof.
  intros Hn. destruct source_run as (g & s0 & s & Eg & Hok & Hg & E0 & Er & Hr & H1 & H2 & H3 & H4 & H5 & H6).
  destruct grid8 as (g' & Eg' & _ & Nx & Ny & Dx & _ & _ & Hp). rewrite Eg in Eg'. injection Eg' as <-.
  assert (Ha : apart g) by (unfold apart; lia).
  destruct (update_safe g s (S n) Hg Hr H1 H2 H3 H4) as (s' & E & E5); [rewrite H5; unfold INT_MIN, INT_MAX; lia..|].
  replace (S n) with (n + 1)%nat in E by lia. rewrite repeat_app in E. rewrite run_app in E. apply obind_fine in E. destruct E as (s1 & E1 & E2).
  destruct (update_safe g s n Hg Hr H1 H2 H3 H4) as (s1' & E' & E6); [rewrite H5; unfold INT_MIN, INT_MAX; lia..|].
  rewrite E1 in E'. injection E' as <-.
  cbn [repeat run exec] in E2. apply obind_fine in E2. destruct E2 as (s2 & E2 & E3). injection E3 as ->.
  assert (B0 : bare (f_ph s)).
  { cbn [run exec] in Er. unfold add_source in Er. inv_fine. cbn. unfold mk_field in E0. apply bind_ok in E0. destruct E0 as (p & Hp0 & E0). cbn in E0.
    inv_ok. cbn. unfold mk_phys in Hp0. inv_ok. unfold bare. cbn. auto. }
  destruct (bare_updates g n s s1 Ha Hr B0 E1) as [B1 B2].
  exists g, s0, s1, s'. split; [exact Eg|]. split; [exact Ha|]. split; [exact E0|].
  split; [rewrite run_app, Er; exact E1|]. split; [now apply (run_reachable g s (repeat Update n))|].
  split; [exact B1|]. split; [rewrite E6, H5; lia|]. split; [exact E2|]. split; [exact Dx|]. rewrite B2, H6. reflexivity.
Qed.

Lemma core_undriven (g : grid) t srcs c i j : g_dx g = 1%R -> map src_core srcs = map src_core [lamp; wire] -> (3 <= i)%Z -> (3 < j)%Z ->
  undriven t g srcs c i j.
Proof.
  intros Hd Hm Hi Hj r L Hin _ HL Hc. assert (K : In (src_core r) (map src_core [lamp; wire])) by (rewrite <- Hm; now apply in_map).
  assert (Q : forall (u v : R) a b, u = IZR a -> v = IZR b -> is_int32 a -> is_int32 b -> to_grid g (u, v) = Ok (a, b)) by
    (intros u v a b -> -> Ka Kb; now apply to_grid_int).
  destruct K as [K|[K|[]]]; injection K as _ _ K _; rewrite <- K in HL; cbn [src_cells lamp wire sr_kind] in HL.
  - destruct HL as (q & Hq & ->). destruct Hc as [->|[]]. rewrite (Q 3%R 3%R 3 3) in Hq; try reflexivity; try (unfold is_int32; lia).
    injection Hq as <- <-. lia.
  - destruct HL as (a & b & Ea & Eb & ->). cbn [wire_surf s_a s_b] in Ea, Eb.
    rewrite (Q 2%R 2%R 2 2) in Ea; try reflexivity; try (unfold is_int32; lia).
    rewrite (Q 5%R 2%R 5 2) in Eb; try reflexivity; try (unfold is_int32; lia).
    injection Ea as <-. injection Eb as <-. cbn in Hc. destruct Hc as [Hc|[Hc|[Hc|[]]]]; injection Hc; lia.
Qed.

Lemma updates_keep g n : forall s s', apart g -> reachable g s -> run (repeat Update n) s = Fine s' ->
  ph_objs (f_ph s') = ph_objs (f_ph s) /\ (ph_srcs (f_ph s) = [] -> ph_srcs (f_ph s') = []) /\ (ph_tfsf (f_ph s) = None -> ph_tfsf (f_ph s') = None).
Proof.
  induction n as [|n IH]; intros s s' Ha Hr H; cbn [repeat run exec] in H; [injection H as <-; auto|].
  apply obind_fine in H. destruct H as (s1 & H1 & H).
  assert (R1 : reachable g s1). { apply (run_reachable g s [Update]); [exact Hr|]. cbn [run exec]. rewrite H1. reflexivity. }
  destruct (reachable_good g s (apart_roomy _ Ha) Hr) as [Hw Eg].
  apply update_phys_step in H1.
  destruct (full_step (f_ph s) (f_ph s1)) as (E0 & E1 & E2 & E3 & Ls & u & h & CW); [rewrite Eg; exact Ha|exact Hw|exact H1|]. destruct CW.
  destruct (IH s1 s' Ha R1 H) as (A & B & C). apply static_eq in cw_static. destruct cw_static as (_ & _ & S & _).
  split; [congruence|]. split; intros K.
  - apply B. rewrite K in cw_srcs. now destruct (ph_srcs (f_ph s1)).
  - apply C. unfold line in cw_line. rewrite K in cw_line. now injection cw_line as <-.
Qed.
