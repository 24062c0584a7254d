(** Three runs with one, the other and both sources, for the example of C17. *)
From Coq Require Import ZArith Reals List Bool String Lia Lra.
From Verif Require Import Scalar Base BaseFacts VecM GridM GeometryM MaterialM PmlM DftM TfsfM PolarM
  InterpM H5M ClockM MonitorM FieldM SpecGrid GridFacts OutFacts PhysFacts
  WfFacts ReachFacts SafetyFacts SpecSafety SafeFacts SpecStep StepFacts SpecSource SourceFacts ExampleFacts ExampleSrc MemoryFacts FullStep SpecSum SumStep.
Import ListNotations.
Local Open Scope Z_scope.
#[local] Existing Instance RNum.

Lemma add_run S : forall s f, foldM write_src (f_h5 s) S = Ok f ->
  run (map AddSource S) s = Fine (map_ph (fun p => set_ph_srcs (ph_srcs p ++ S) p) (set_f_h5 f s)).
Proof.
  induction S as [|r S IH]; intros s f H; cbn [map run foldM] in *.
  - injection H as <-. destruct s as [p ? ? ? ? ?]. unfold map_ph, set_f_h5. cbn. rewrite app_nil_r. now destruct p.
  - apply bind_ok in H. destruct H as (f1 & H1 & H). cbn [exec]. unfold add_source. rewrite H1. cbn [prim obind].
    rewrite (IH _ f); [|exact H]. unfold map_ph, set_f_h5, set_f_ph. cbn. now rewrite <- app_assoc.
Qed.

Lemma sum_case n : (n < 1000)%nat -> exists (g : grid) s s1 s2 s3, mk_grid 8%R 8%R 1%R 1 = Ok g /\ apart g /\ reachable g s /\
  ph_srcs (f_ph s) = [] /\ ph_tfsf (f_ph s) = None /\ ph_step (f_ph s) = 0 /\
  run (map AddSource [lamp] ++ repeat Update n) s = Fine s1 /\
  run (map AddSource [wire] ++ repeat Update n) s = Fine s2 /\
  run (map AddSource ([lamp] ++ [wire]) ++ repeat Update n) s = Fine s3.
Proof.
  intros Hn. destruct grid8 as (g & Eg & Hok & Nx & Ny & Hdx & HLx & HLy & Hp).
  assert (Hr : roomy g) by (unfold roomy; lia). assert (Ha : apart g) by (unfold apart; lia).
  destruct (mk_field_fresh g "out" Hr) as (p & Ep & E0); [discriminate|].
  destruct (mk_phys_ok g Hr) as (p' & Ep' & Hw & Gp & Sp & Tp & Op & Np). rewrite Ep in Ep'. injection Ep' as <-.
  set (s0 := Field p [] [] [] (fresh_h5 g) mk_clocks) in *.
  assert (R0 : reachable g s0) by (exists "out"%string, s0, []; auto).
  assert (K : forall S f, foldM write_src (fresh_h5 g) S = Ok f -> (forall r, In r S -> r = lamp \/ r = wire) ->
    exists s', run (map AddSource S ++ repeat Update n) s0 = Fine s').
  { intros S f Hf HS. assert (A := add_run S s0 f Hf). set (s' := map_ph _ _) in A.
    destruct (update_safe g s' n Hr) as (s2 & E2 & _).
    - now apply (run_reachable g s0 (map AddSource S)).
    - split.
      + cbn [f_ph map_ph set_f_ph set_f_h5 s' s0 set_ph_srcs ph_srcs ph_grid]. rewrite Sp, Gp. cbn [app].
        intros r Hin. destruct (HS r Hin) as [->| ->].
        * split; [now left|]. exists (3, 3)%Z. split; [now apply (to_grid_int g 3 3)|]. unfold in_grid. rewrite Nx, Ny. cbn. lia.
        * split; [now right; left|]. exists (2, 2)%Z, (5, 2)%Z.
          split; [now apply (to_grid_int g 2 2)|]. split; [now apply (to_grid_int g 5 2)|].
          unfold in_grid. rewrite Nx, Ny. cbn [fst snd]. repeat split; try lia; try discriminate.
      + cbn. rewrite Tp. discriminate.
    - split; reflexivity. - reflexivity. - reflexivity.
    - cbn. rewrite Np. unfold INT_MIN. lia.
    - cbn. rewrite Np. unfold INT_MAX. lia.
    - exists s2. rewrite run_app, A. exact E2. }
  assert (F1 : exists f, foldM write_src (fresh_h5 g) [lamp] = Ok f) by (eexists; reflexivity).
  assert (F2 : exists f, foldM write_src (fresh_h5 g) [wire] = Ok f) by (eexists; reflexivity).
  assert (F3 : exists f, foldM write_src (fresh_h5 g) [lamp; wire] = Ok f) by (eexists; reflexivity).
  destruct F1 as [f1 F1], F2 as [f2 F2], F3 as [f3 F3].
  destruct (K _ _ F1) as [s1 K1]; [intros r [<-|[]]; auto|].
  destruct (K _ _ F2) as [s2 K2]; [intros r [<-|[]]; auto|].
  destruct (K _ _ F3) as [s3 K3]; [intros r [<-|[<-|[]]]; auto|].
  exists g, s0, s1, s2, s3. repeat (split; [assumption|]). exact K3.
Qed.

Lemma plain_run n : forall p p', apart (ph_grid p) -> wf_phys p -> phys_run (repeat Update n) p = Fine p' ->
  map src_core (ph_srcs p') = map src_core (ph_srcs p) /\ ph_step p' = ph_step p + Z.of_nat n.
Proof.
  induction n as [|n IH]; intros p p' Ha Hw H; cbn [repeat phys_run] in H; [injection H as <-; split; [reflexivity|lia]|].
  apply obind_fine in H. destruct H as (p1 & H1 & H). cbn [phys_exec] in H1.
  destruct (full_step p p1 Ha Hw H1) as (E0 & E1 & E2 & E3 & Ls & u & h & []). apply static_eq in cw_static. destruct cw_static as (G & _).
  destruct (IH p1 p') as [I1 I2]; auto; [now rewrite G|]. rewrite I1, I2, cw_srcs, cw_step. split; [reflexivity|lia].
Qed.

Lemma sum_states_case : exists (g : grid) s1 s2 s3, apart (ph_grid (f_ph s3)) /\ ph_grid (f_ph s3) = g /\
  wf_phys (f_ph s1) /\ wf_phys (f_ph s2) /\ wf_phys (f_ph s3) /\ ph_srcs (f_ph s3) <> [] /\ ph_step (f_ph s3) = 5 /\
  sum_state (f_ph s1) (f_ph s2) (f_ph s3).
Proof.
  destruct (sum_case 5) as (g & s & s1 & s2 & s3 & Eg & Ha & Hr & Hs & Ht & N0 & R1 & R2 & R3); [lia|].
  assert (Q : forall l s', run l s = Fine s' -> reachable g s') by (intros l s'; apply run_reachable; exact Hr).
  assert (HS := superposition g s [lamp] [wire] 5 s1 s2 s3 Ha Hr Hs Ht R1 R2 R3).
  destruct (reachable_good g s1 (apart_roomy _ Ha) (Q _ _ R1)) as [W1 _]. destruct (reachable_good g s2 (apart_roomy _ Ha) (Q _ _ R2)) as [W2 _].
  destruct (reachable_good g s3 (apart_roomy _ Ha) (Q _ _ R3)) as [W3 G3].
  exists g, s1, s2, s3. rewrite G3. split; [exact Ha|]. split; [reflexivity|]. split; [exact W1|]. split; [exact W2|]. split; [exact W3|].
  assert (K : forall S s', run (map AddSource S ++ repeat Update 5) s = Fine s' -> map src_core (ph_srcs (f_ph s')) = map src_core S /\ ph_step (f_ph s') = 5).
  { intros S s' R. rewrite run_app in R. apply obind_fine in R. destruct R as (a & A & R).
    destruct (reachable_good g a (apart_roomy _ Ha) (Q _ _ A)) as [Wa Ga]. apply run_phys in A, R. apply add_sources in A.
    destruct (plain_run 5 (f_ph a) (f_ph s')) as [I1 I2]; [now rewrite Ga|exact Wa|exact R|].
    rewrite I1, I2, A. cbn. rewrite Hs, N0. auto. }
  destruct (K _ _ R3) as [K1 K2]. split; [|auto]. intros E. rewrite E in K1. discriminate.
Qed.
