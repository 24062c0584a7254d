(** A lamp in the middle of a rectangle of vacuum. *)
From Coq Require Import ZArith Reals List Bool String Lia Lra.
From Verif Require Import Scalar Base BaseFacts VecM GridM GeometryM MaterialM PmlM DftM TfsfM PolarM
  InterpM H5M ClockM MonitorM FieldM SpecGrid GridFacts OutFacts PhysFacts SpecGeometry SpecPaint PaintFacts
  WfFacts ReachFacts SafetyFacts SpecSafety SafeFacts SpecStep StepFacts EngineFacts SpecSource SourceFacts ExampleFacts FullStep SpecMedium SpecMedia SpecMaterial SpecRim SpecTrace
  SumRun ExampleSrc MirrorCase SpecEnergy SpecLoss SpecFreq SpecOutput SpecPoynt SpecWork.
Import ListNotations.
Local Open Scope Z_scope.
#[local] Existing Instance RNum.

Definition bright : source := lamp_at 32 32 (/ 4)%R.
Definition room : rect := Rect 10 50 10 50.
Definition air (i j : Z) : material := Material "vacuum" vacuum.

Lemma work_case N : Z.of_nat N < 2147483646 -> exists g s0 (tr : nat -> field), grid_ok g /\ apart g /\ mk_field g "out" = Ok s0 /\
  (forall n, (n <= S N)%nat -> run ([AddSource bright] ++ repeat Update n) s0 = Fine (tr n)) /\
  clear_rect g room /\ ph_srcs (f_ph (tr 0%nat)) = [bright] /\ Forall2 (fun r L => src_cells g (sr_kind r) L) (ph_srcs (f_ph (tr 0%nat))) [[(32, 32)]] /\
  (forall i j, inside room i j -> passive (m_kind (air i j)) /\ point_of [] (air i j) (g_dx g * IZR i, g_dx g * IZR j)%R) /\
  (forall i j n, inside room i j -> (n <= N)%nat -> open_cell g (tr n) (tr (S n)) (air i j) i j) /\
  inside room 32 32 /\ as_current (g_dt g) (m_kind (air 32 32)) (supply 1%R (combine [bright] [[(32, 32)]]) Ez 32 32) = 2%R.
Proof.
  intros HN. destruct grid_64 as (g & Eg & Hok & Nx & Ny & Dx & Dt & Hp). assert (Ha : apart g) by (unfold apart; lia). assert (Hr := apart_roomy _ Ha).
  destruct (mk_field_fresh g "out" Hr) as (p & Ep & E0); [discriminate|].
  destruct (mk_phys_ok g Hr) as (p' & Ep' & Hw & Gp & Sp & Tp & Op & Np). rewrite Ep in Ep'. injection Ep' as <-.
  set (s0 := Field p [] [] [] (fresh_h5 g) mk_clocks) in *.
  assert (R0 : reachable g s0) by (exists "out"%string, s0, []; auto).
  assert (Hf : exists h, write_src (fresh_h5 g) bright = Ok h) by (eexists; reflexivity). destruct Hf as [h Hf].
  assert (A := add_run [bright] s0 h ltac:(cbn [foldM]; cbn [f_h5 s0]; rewrite Hf; reflexivity)). set (s1 := map_ph _ _) in A.
  assert (R1 : reachable g s1) by now apply (run_reachable g s0 (map AddSource [bright])).
  assert (E1 : f_ph s1 = set_ph_srcs [bright] p) by (cbn; now rewrite Sp).
  assert (Tg : to_grid g (32, 32)%R = Ok (32, 32)) by (apply (to_grid_int g 32 32 Dx); unfold is_int32; lia).
  assert (Up : forall n, (n <= S N)%nat -> exists s, run (repeat Update n) s1 = Fine s).
  { intros n Hn. destruct (update_safe g s1 n Hr R1) as (s2 & E2 & _); [| | | | | |eauto].
    - rewrite E1. split; [|cbn; rewrite Tp; discriminate]. cbn. intros r' [<-|[]]. split; [now left|].
      exists (32, 32). split; [rewrite Gp; exact Tg|]. rewrite Gp. unfold in_grid. cbn [fst snd]. split; lia.
    - split; reflexivity. - reflexivity. - reflexivity.
    - rewrite E1. cbn. rewrite Np. unfold INT_MIN. lia.
    - rewrite E1. cbn. rewrite Np. unfold INT_MAX. lia. }
  set (tr := fun n => match run (repeat Update n) s1 with Fine s => s | _ => s1 end). assert (T0 : tr 0%nat = s1) by reflexivity.
  exists g, s0, tr.
  assert (Go : forall n, (n <= S N)%nat -> run ([AddSource bright] ++ repeat Update n) s0 = run (repeat Update n) s1).
  { intros n _. rewrite run_app. change [AddSource bright] with (map AddSource [bright]). rewrite A. reflexivity. }
  split; [exact Hok|]. split; [exact Ha|]. split; [exact E0|]. split; [intros n Hn; rewrite Go by exact Hn; unfold tr; destruct (Up n Hn) as [s ->]; reflexivity|].
  split; [unfold clear_rect, room; cbn [ra rb rc rd]; lia|]. rewrite T0.
  split; [now rewrite E1|]. split; [rewrite E1; constructor; [|constructor]; exists (32, 32); split; [exact Tg|reflexivity]|].
  split. { intros i j _. split; [cbn; rnum; lra|]. cbn. split; [|intros o []]. right. split; [intros o []|reflexivity]. }
  split; [|split; [unfold inside, room; cbn [ra rb rc rd]; lia|]].
  - intros i j n Hq Hn. destruct (Up n ltac:(lia)) as [a Ea]. destruct (Up (S n) ltac:(lia)) as [b Eb]. unfold tr. rewrite Ea, Eb.
    assert (Ra : reachable g a) by exact (run_reachable g s1 _ a R1 Ea).
    assert (Eu : update a = Fine b).
    { cbn [repeat] in Eb. rewrite repeat_cons, run_app, Ea in Eb. cbn [obind run exec] in Eb. destruct (update a); cbn [obind] in Eb; congruence. }
    assert (Tf : ph_tfsf (f_ph a) = None).
    { assert (K : ph_tfsf (f_ph s1) = None) by (rewrite E1; exact Tp). clear - K Ea Ha R1. clearbody s1. revert s1 K Ea R1. induction n as [|n IH]; intros s1 K Ea R1; cbn [repeat run] in Ea; [injection Ea as <-; exact K|].
      cbn [exec] in Ea. destruct (update s1) as [x|x|x] eqn:Ex; cbn [obind] in Ea; try discriminate.
      destruct (reachable_good g s1 (apart_roomy g Ha) R1) as [Hw Gg]. assert (Rx : reachable g x) by (apply (run_reachable g s1 [Update] x R1); cbn [run exec]; now rewrite Ex).
      apply (IH x); auto. apply update_phys_step in Ex. rewrite <- Gg in Ha. destruct (full_step _ _ Ha Hw Ex) as (? & ? & ? & ? & ? & ? & ? & []).
      rewrite K in cw_line. cbn in cw_line. congruence. }
    constructor; auto; rewrite ?Tf; try exact I; [rewrite Dt; lra|]. intros [].
  - unfold supply, bright. cbn [combine fold_right fst snd lamp_at sr_c same_comp sr_tp tp_shape]. unfold visits_to. cbn [filter fst snd Z.eqb Pos.eqb andb List.length INR].
    unfold shape_val, as_current, air. cbn [m_kind]. rewrite Dt. unfold vacuum. cbn [sm_eps sm_conduc]. rnum. change (@T RNum) with R.
    replace (2 * PI * / 4 * 1)%R with (PI / 2)%R by field. rewrite sin_PI2. field.
Qed.
