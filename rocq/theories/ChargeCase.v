(** Two runs on an 8 by 8 grid: an electric flash, whose field carries no magnetic charge, and a
    magnetic one, which leaves a charge behind. *)
From Coq Require Import ZArith Reals List Bool String Lia Lra.
From Verif Require Import Scalar Base BaseFacts VecM GridM GeometryM MaterialM PmlM DftM TfsfM PolarM
  InterpM H5M ClockM MonitorM FieldM SpecGrid GridFacts SpecGeometry GeometryFacts OutFacts PhysFacts
  SpecPaint PaintFacts WfFacts ReachFacts SafetyFacts SpecSafety SafeFacts InvFacts SpecStep StepFacts EngineFacts YeeFacts TextbookFacts
  SpecSource SourceFacts SpecMedium PolarFacts FullStep SpecRim MediumFacts StrengthFacts MediaFacts SpecMedia MediaRun SpecMaterial MaterialFacts
  OutsideFacts MagnetFacts HalfFacts ExampleFacts ExampleSrc ExampleMedia RefuteMedia SpecCharge ChargeFacts.
Import ListNotations.
#[local] Existing Instance RNum.
Local Open Scope R_scope.

Lemma flash_charge : exists (g : grid) s0 s, mk_grid 8 8 1 1 = Ok g /\ apart g /\ mk_field g "out" = Ok s0 /\
  run_catch [AddSource (flash (/ 2)); Update] s0 = Fine s /\ inner_square g 3 3 /\ Forall (spares g 3 3) [AddSource (flash (/ 2)); Update] /\
  Hx_at (f_ph s) 3 3 = / 2 /\ Hy_at (f_ph s) 3 3 = - / 2.
Proof.
  destruct (flash_start (/ 2)) as (g & s0 & s & f1 & Eg & E0 & _ & Er & Rd & Dk & St & _).
  destruct (ready_update _ _ _ Rd ltac:(lia)) as (s' & Eu & Rd' & _).
  destruct (first_curl g (/ 2) s s' Rd Dk Eu Rd') as (A & _ & B & _). exists g, s0, s'.
  assert (T0 : ph_t (f_ph s) + / 2 = / 2) by (rewrite (rd_t _ _ _ Rd), St; lra). rewrite T0, (proj1 pulse_half) in A, B.
  do 2 (split; [first [exact Eg|exact (ready_apart _ _ _ Rd)]|]). split; [exact E0|]. split.
  { apply run_run_catch. change [AddSource (flash (/ 2)); Update] with ([AddSource (flash (/ 2))] ++ [Update]). rewrite run_app, Er. cbn [obind run exec]. now rewrite Eu. }
  split; [unfold inner_square; rewrite (rd_Nx _ _ _ Rd), (rd_Ny _ _ _ Rd), (rd_pml _ _ _ Rd); lia|]. split; [|split; lra].
  repeat constructor; cbn; intros [E _]; discriminate.
Qed.

(** a magnetic source at (3, 3) *)
Definition magnet : source := Source "magnet" Hx (SPoint (3, 3)) (TProfile (Continuous (/ 2)) None).

Lemma magnet_charge : exists (g : grid) s0 s s1 s2, mk_grid 8 8 1 1 = Ok g /\ apart g /\ mk_field g "out" = Ok s0 /\ 0 < g_dt g /\
  run [AddSource magnet] s0 = Fine s /\ update s = Fine s1 /\ update s1 = Fine s2 /\ reachable g s1 /\ inner_square g 3 3 /\
  silent_at (ph_t (f_ph s1) + g_dt g) (f_ph s1) 3 3 /\ charge (f_ph s1) 3 3 = - 1.
Proof.
  destruct grid8 as (g & Eg & Hok & Nx & Ny & Hdx & HLx & HLy & Hp).
  assert (Hr : roomy g) by (unfold roomy; lia). assert (Ha : apart g) by (unfold apart; lia).
  assert (Hd : g_dt g = / 2) by (destruct Hok as (_ & _ & _ & _ & _ & K); rewrite Hdx in K; lra).
  destruct (mk_field_fresh g "out" Hr) as (p & Ep & E0); [discriminate|].
  destruct (mk_phys_ok g Hr) as (p' & Ep' & Hw & Gp & Sp & Tp & Op & Np). rewrite Ep in Ep'. injection Ep' as <-.
  destruct (mk_phys_dark g p Ep) as [Dk T0].
  assert (Ew : exists f1, write_src (fresh_h5 g) magnet = Ok f1) by (eexists; reflexivity). destruct Ew as [f1 Ew].
  set (s0 := Field p [] [] [] (fresh_h5 g) mk_clocks) in *.
  set (s := map_ph (fun p => set_ph_srcs (ph_srcs p ++ [magnet]) p) (set_f_h5 f1 s0)).
  assert (Er : run [AddSource magnet] s0 = Fine s).
  { cbn [run exec]. unfold add_source. change (f_h5 s0) with (fresh_h5 g). rewrite Ew. reflexivity. }
  assert (Ps : ph_srcs (f_ph s) = [magnet]) by (cbn; now rewrite Sp).
  assert (R0 : reachable g s) by (exists "out"%string, s0, [AddSource magnet]; split; [exact E0|now apply run_run_catch]).
  destruct (reachable_good g s Hr R0) as [W Gg].
  assert (Pl : placed (f_ph s)).
  { apply sources_inside_placed. split; [|cbn; rewrite Tp; discriminate]. rewrite Ps. intros r [<-|[]]. rewrite Gg.
    split; [right; now left|]. exists (3, 3)%Z. split; [now apply (to_grid_int g 3 3)|]. unfold in_grid. rewrite Nx, Ny. cbn. lia. }
  assert (Ns : ph_step (f_ph s) = 0%Z) by exact Np. assert (Nt : ph_tfsf (f_ph s) = None) by exact Tp.
  destruct (update_ok s) as (s1 & E1 & P1 & A1 & A2 & A3 & A4 & A5 & A6 & A7); auto; [now rewrite Gg|split; reflexivity|rewrite Ns; unfold INT_MIN, INT_MAX; lia|].
  assert (R1 : reachable g s1) by (apply (run_reachable g s [Update] s1 R0); cbn [run exec]; now rewrite E1).
  destruct (reachable_good g s1 Hr R1) as [W1 G1].
  assert (Ha' := Ha). rewrite <- Gg in Ha'. destruct (step_rest _ _ Ha' W Nt P1) as (B1 & B2 & B3 & B4). 
  assert (Src : forall t r L, src_core r = src_core magnet -> src_cells g (sr_kind r) L ->
    sr_c r = Hx /\ shape_val (tp_shape (sr_tp r)) t = pulse_at (/ 2) t /\ L = [(3, 3)%Z]).
  { intros t r L Hc HL. unfold src_core in Hc. cbn in Hc. injection Hc as _ K1 K2 K3. rewrite K2 in HL. split; [exact K1|]. split; [now rewrite K3|].
    destruct HL as (q & Hq & ->). rewrite (to_grid_int g 3 3 Hdx) in Hq by (unfold is_int32, INT_MIN, INT_MAX; lia). now injection Hq as <-. }
  destruct (update_ok s1) as (s2 & E2 & P2 & _); auto.
  { rewrite B3, Gg; exact Hr. } { rewrite A5, Ns. unfold INT_MIN, INT_MAX. lia. }
  exists g, s0, s, s1, s2. split; [exact Eg|]. split; [exact Ha|]. split; [exact E0|]. split; [lra|]. split; [exact Er|]. split; [exact E1|]. split; [exact E2|].
  split; [exact R1|]. split; [unfold inner_square; lia|].
  assert (T1 : ph_t (f_ph s1) = / 2) by (rewrite B4, Gg, Hd; cbn [f_ph s map_ph set_f_ph ph_t set_ph_srcs set_f_h5 s0]; rewrite T0; rnumg; lra).
  split.
  { assert (U : forall c i j, undriven (ph_t (f_ph s1) + g_dt g) g (ph_srcs (f_ph s1)) c i j).
    { intros c i j r L Hrr Hc HL Hin. rewrite Ps in B1. cbn [map] in B1. destruct (ph_srcs (f_ph s1)) as [|a [|b l]]; cbn [map] in B1; try discriminate.
      destruct Hrr as [<-|[]]. apply (f_equal (fun l => hd (src_core a) l)) in B1. cbn [hd] in B1.
      destruct (Src (ph_t (f_ph s1) + g_dt g) a L B1 HL) as (_ & -> & _). rewrite T1, Hd. replace (/ 2 + / 2) with 1 by lra. exact (proj2 pulse_half). }
    unfold silent_at. rewrite G1, B2. cbn. auto 10. }
  (* the fields after the first step *)
  assert (Ez0 : forall i j, (0 <= i < 8)%Z -> (0 <= j < 8)%Z -> Ez_at (f_ph s1) i j = 0).
  { intros i j Hi Hj. destruct (step_cell (f_ph s) _ i j Ha' W (reachable_tame g s R0) P1) as (Ls & HL & V); [rewrite Gg, Nx; exact Hi|rewrite Gg, Ny; exact Hj|].
    rewrite Nt in V. unfold tf in V. rewrite V, Gg. rewrite Gg in HL. rewrite (undriven_lit _ g (ph_srcs (f_ph s)) Ls); [|intros r L Hrr Hc HL' Hin; rewrite Ps in Hrr; destruct Hrr as [<-|[]]; discriminate|exact HL].
    assert (Dn := dark_next g (f_ph s) i j Dk). rewrite Dn. destruct Dk as (_ & _ & D1 & D2 & D3). unfold taken.
    change (ph_debye (f_ph s)) with (ph_debye p). change (ph_drude (f_ph s)) with (ph_drude p). change (ph_lorentz (f_ph s)) with (ph_lorentz p).
    rewrite D1, D2, D3. cbn [loads]. rnumg. lra. }
  destruct (step_magnet _ _ Ha' W P1) as (Ls & HL & _ & V). rewrite Gg in *.
  assert (Cf := reachable_coefs g s Ha R0). destruct Cf as (_ & _ & Sx & Sy). destruct (reachable_nonmag g s R0) as [_ Nm].
  rewrite B2 in V. unfold tf in V. cbv zeta in V. rewrite Nx, Ny, Hp in *.
  assert (L1 : exists L, Ls = [L] /\ L = [(3, 3)%Z]).
  { rewrite Ps in HL. inversion HL as [|? L ? Ls' K1 K2]; subst. inversion K2; subst. exists L. split; [reflexivity|]. now apply (Src 0 magnet L). }
  destruct L1 as (L & -> & ->). rewrite Ps in V. 
  assert (Vx : forall i j, (2 <= i <= 5)%Z -> (2 <= j <= 4)%Z -> Hx_at (f_ph s1) i j = if ((3 =? i) && (3 =? j))%Z then 1 else 0).
  { intros i j Hi Hj. destruct (V i j) as [Vx _]. unfold Hx_at. rewrite Vx. unfold next_h. cbn [hX]. unfold core.
    replace ((1 <=? i) && (i <? 8 - 1) && (1 <=? j) && (j <? 8 - 1))%Z with true by lia. unfold addHx, yeeHx.
    replace (j <? 2)%Z with false by lia. replace (8 - 1 - 2 <=? j)%Z with false by lia. cbn [andb].
    change (mDa (med (f_ph s)) i j) with (tval (cDa (ph_C (f_ph s))) i j). change (mDb (med (f_ph s)) i j) with (tval (cDb (ph_C (f_ph s))) i j).
    destruct (Nm i j ltac:(lia) ltac:(lia)) as [-> ->].
    change (tval (fEz (ph_F (f_ph s1))) i (j + 1)) with (Ez_at (f_ph s1) i (j + 1)). change (tval (fEz (ph_F (f_ph s1))) i j) with (Ez_at (f_ph s1) i j).
    rewrite !Ez0 by lia. unfold lit. cbn [combine fold_left magnet sr_c comp_eqb]. unfold add_at. cbn [fold_left fst snd fval sr_tp tp_shape].
    change (tval (fHx (ph_F (f_ph s))) i j) with (Hx_at p i j). destruct Dk as (D & _). destruct (D i j) as (_ & -> & _).
    assert (Sv : shape_val (tp_shape (sr_tp magnet)) (ph_t (f_ph s) + g_dt g)%num = 1).
    { change (ph_t (f_ph s)) with (ph_t p). rewrite T0, Hd. rnumg. rewrite Rplus_0_l. exact (proj1 pulse_half). }
    rewrite Sv. destruct ((3 =? i) && (3 =? j))%Z; rnumg; unfold Rdiv; ring. }
  assert (Vy : forall i j, (2 <= i <= 4)%Z -> (2 <= j <= 5)%Z -> Hy_at (f_ph s1) i j = 0).
  { intros i j Hi Hj. destruct (V i j) as [_ Vy]. unfold Hy_at. rewrite Vy. unfold next_h. cbn [hY]. unfold core.
    replace ((1 <=? i) && (i <? 8 - 1) && (1 <=? j) && (j <? 8 - 1))%Z with true by lia. unfold addHy, yeeHy.
    replace (i <? 2)%Z with false by lia. replace (8 - 1 - 2 <=? i)%Z with false by lia. cbn [andb].
    change (mDa (med (f_ph s)) i j) with (tval (cDa (ph_C (f_ph s))) i j). change (mDb (med (f_ph s)) i j) with (tval (cDb (ph_C (f_ph s))) i j).
    destruct (Nm i j ltac:(lia) ltac:(lia)) as [-> ->].
    change (tval (fEz (ph_F (f_ph s1))) (i + 1) j) with (Ez_at (f_ph s1) (i + 1) j). change (tval (fEz (ph_F (f_ph s1))) i j) with (Ez_at (f_ph s1) i j).
    rewrite !Ez0 by lia. unfold lit. cbn [combine fold_left magnet sr_c comp_eqb]. cbn [fval].
    change (tval (fHy (ph_F (f_ph s))) i j) with (Hy_at p i j). destruct Dk as (D & _). destruct (D i j) as (_ & _ & ->).
    rnumg; unfold Rdiv; ring. }
  unfold charge. rewrite !Vx, !Vy by lia. cbn [Z.add Pos.add Pos.succ Z.eqb Pos.eqb andb]. rewrite G1, Hdx. lra.
Qed.
