(** Concrete runs in which the material equations fail. *)
From Coq Require Import ZArith Reals List Bool String Lia Psatz.
From Verif Require Import Scalar Base BaseFacts VecM GridM GeometryM MaterialM PmlM DftM TfsfM PolarM
  InterpM H5M ClockM MonitorM FieldM SpecGrid GridFacts SpecGeometry GeometryFacts OutFacts PhysFacts
  SpecPaint PaintFacts WfFacts ReachFacts SafetyFacts SpecSafety SafeFacts InvFacts SpecStep StepFacts EngineFacts YeeFacts TextbookFacts
  SpecSource SourceFacts SpecMedium PolarFacts FullStep SpecRim MediumFacts StrengthFacts MediaFacts SpecMedia MediaRun SpecMaterial MaterialFacts
  OutsideFacts MagnetFacts HalfFacts ExampleFacts ExampleSrc ExampleMedia.
Import ListNotations.
Local Open Scope R_scope.
#[local] Existing Instance RNum.

(** a 2 by 2 block of material k at (3, 3) *)
Definition brick (k : mat_kind) : obj := Obj "brick" false (Block (2, 2)) (Material "stuff" k) (3, 3) 0.
(** the same at (5, 5), away from (3, 3) *)
Definition far (k : mat_kind) : obj := Obj "far" false (Block (2, 2)) (Material "stuff" k) (5, 5) 0.

Lemma rot0 q : rot 0 q = q.
Proof. destruct q as [x y]. unfold rot. rewrite cos_0, sin_0. cbn [fst snd]. apply injective_projections; cbn [fst snd]; rnumg; ring. Qed.
Lemma brick_in k : in_obj (brick k) (3, 3).
Proof.
  exists (0, 0). rewrite rot0. unfold in_shape, vadd, brick. cbn [o_geom o_pos fst snd]. rewrite Rabs_R0. rnumg.
  split; [lra|apply injective_projections; cbn [fst snd]; rnumg; ring].
Qed.
Lemma far_out k : ~ in_obj (far k) (3, 3).
Proof.
  intros [[x y] [H E]]. unfold far in *. cbn [o_geom o_pos o_theta] in *. rewrite rot0 in E. unfold in_shape, vadd in *. cbn [fst snd] in *. rnum. injection E as E1 E2.
  assert (x = -2) by lra. subst. destruct H as [H _]. unfold Rabs in H. destruct Rcase_abs; lra.
Qed.
Lemma block_box c : let b := place_box (Block (2, 2)) (c, c) 0 in v_a b = (c - 1, c - 1) /\ v_b b = (c + 1, c + 1).
Proof.
  unfold place_box. cbn [geom_box stored_box vol_translate mk_volume v_a v_b v_dim].
  unfold vadd, vneg, vdivs, vsub, vabs. cbn [fst snd]. rnumg. rewrite cos_0, sin_0, Ropp_0, Rabs_R1, Rabs_R0.
  split; apply injective_projections; cbn [fst snd]; unfold Rabs; repeat destruct Rcase_abs; lra.
Qed.
Lemma brick_box k : in_box (0, 0) (7, 7) (v_a (obj_box (brick k))) /\ in_box (0, 0) (7, 7) (v_b (obj_box (brick k))).
Proof.
  assert (A : v_a (obj_box (brick k)) = (3 - 1, 3 - 1)) by exact (proj1 (block_box 3)).
  assert (B : v_b (obj_box (brick k)) = (3 + 1, 3 + 1)) by exact (proj2 (block_box 3)).
  rewrite A, B. unfold in_box. cbn [fst snd]. rnumg. lra.
Qed.
Lemma far_box k : in_box (0, 0) (7, 7) (v_a (obj_box (far k))) /\ in_box (0, 0) (7, 7) (v_b (obj_box (far k))).
Proof.
  assert (A : v_a (obj_box (far k)) = (5 - 1, 5 - 1)) by exact (proj1 (block_box 5)).
  assert (B : v_b (obj_box (far k)) = (5 + 1, 5 + 1)) by exact (proj2 (block_box 5)).
  rewrite A, B. unfold in_box. cbn [fst snd]. rnumg. lra.
Qed.

(** the file accepts the first object *)
Lemma file_takes (g : grid) f o k : o = brick k \/ o = far k -> forall f1, write_src (fresh_h5 g) (flash f) = Ok f1 ->
  exists f2 f3, write_mat f1 (o_mat o) = Ok f2 /\ write_obj f2 o = Ok f3.
Proof.
  intros Ho f1 W.
  assert (Ew : exists f3, (f1 <- write_src (fresh_h5 g) (flash f) ;; f2 <- write_mat f1 (o_mat o) ;; write_obj f2 o) = Ok f3).
  { destruct Ho as [-> | ->]; destruct k; eexists; reflexivity. }
  destruct Ew as [f3 Ew]. rewrite W in Ew. cbn [bind] in Ew. apply bind_ok in Ew. destruct Ew as (f2 & A & B). eauto.
Qed.

(** the object is there before the first step *)
Lemma early_run f k : exists (g : grid) s0 s, mk_grid 8 8 1 1 = Ok g /\ mk_field g "out" = Ok s0 /\
  run [AddSource (flash f); AddObject (brick k)] s0 = Fine s /\ ready g f s /\
  ph_t (f_ph s) = 0 /\ (forall m, k = KSimple m -> dark (f_ph s)).
Proof.
  destruct (flash_start f) as (g & s0 & s & f1 & Eg & E0 & W & R & Rd & D & St & Hh & Hm).
  destruct (file_takes g f (brick k) k (or_introl eq_refl) f1 W) as (f2 & f3 & W2 & W3).
  destruct (ready_object g f s (brick k) f2 f3 Rd) as (s' & E & Rd' & Fq & Sq & _); try apply brick_box; [rewrite Hm, Hh; exact W2|exact W3|].
  exists g, s0, s'. split; [exact Eg|]. split; [exact E0|]. split.
  { cbn [run] in *. apply obind_fine in R. destruct R as (sx & -> & R). injection R as ->. cbn [obind]. cbn [obind] in E. rewrite E. reflexivity. }
  split; [exact Rd'|]. split; [rewrite (rd_t _ _ _ Rd'), Sq, St; lra|].
  intros m ->. apply add_object_ph in E. unfold phys_add_object, insert_material in E. apply bind_ok in E. destruct E as (a & A & E). cbn [bind brick o_mat m_kind] in E.
  injection E as <-. unfold paint_phys in A. apply bind_ok in A. destruct A as (c & _ & A). injection A as <-. exact D.
Qed.

(** the object comes after the first step *)
Lemma late_run f o k : o = brick k \/ o = far k -> exists (g : grid) s0 s1 s2, mk_grid 8 8 1 1 = Ok g /\ mk_field g "out" = Ok s0 /\
  run [AddSource (flash f); Update] s0 = Fine s1 /\ exec (AddObject o) s1 = Fine s2 /\
  run [AddSource (flash f); Update; AddObject o] s0 = Fine s2 /\ ready g f s1 /\ ready g f s2 /\
  ph_F (f_ph s2) = ph_F (f_ph s1) /\ ph_step (f_ph s1) = 1%Z /\ ph_step (f_ph s2) = 1%Z /\
  let v := pulse_at f (/ 2) in
  Ez_at (f_ph s1) 3 3 = v /\ curl_at (f_ph s1) 3 3 = - 2 * v /\ curl_at (f_ph s2) 3 3 = - 2 * v /\
  ph_prevE (f_ph s1) = None /\ ph_prev2E (f_ph s1) = None /\ ph_debye (f_ph s1) = [] /\ ph_drude (f_ph s1) = [] /\ ph_lorentz (f_ph s1) = [].
Proof.
  intros Ho. destruct (flash_start f) as (g & s0 & s & f1 & Eg & E0 & W & R & Rd & D & St & Hh & Hm).
  destruct (ready_update g f s Rd) as (s1 & E1 & Rd1 & S1 & H1 & M1); [rewrite St; lia|].
  destruct (file_takes g f o k Ho f1 W) as (f2 & f3 & W2 & W3).
  assert (Bx : in_box (0, 0) (7, 7) (v_a (obj_box o)) /\ in_box (0, 0) (7, 7) (v_b (obj_box o))) by (destruct Ho as [-> | ->]; [apply brick_box|apply far_box]).
  destruct (ready_object g f s1 o f2 f3 Rd1) as (s2 & E2 & Rd2 & Fq & Sq & _); try apply Bx; [rewrite M1, Hm, H1, Hh; exact W2|exact W3|].
  exists g, s0, s1, s2. split; [exact Eg|]. split; [exact E0|].
  assert (R' : exec (AddSource (flash f)) s0 = Fine s). { cbn [run] in R. apply obind_fine in R. destruct R as (sx & R & R'). injection R' as ->. exact R. }
  split; [cbn [run]; rewrite R'; cbn [obind exec]; rewrite E1; reflexivity|]. split; [exact E2|].
  split; [cbn [run]; rewrite R'; cbn [obind]; change (exec Update s) with (update s); rewrite E1; cbn [obind]; rewrite E2; reflexivity|].
  split; [exact Rd1|]. split; [exact Rd2|]. split; [exact Fq|]. split; [rewrite S1, St; reflexivity|]. split; [rewrite Sq, S1, St; reflexivity|].
  assert (T0 : ph_t (f_ph s) = 0) by (rewrite (rd_t _ _ _ Rd), St; lra).
  assert (V := first_light g f s s1 3 3 Rd D E1 ltac:(lia) ltac:(lia)). assert (C := first_curl g f s s1 Rd D E1 Rd1).
  cbn [Z.eqb Pos.eqb andb] in V. rewrite T0, Rplus_0_l in V, C. cbn zeta in C. intros v. fold v in V, C. destruct C as (C1 & C2 & C3 & C4).
  split; [exact V|]. rewrite (mid_curl g f s1 Rd1), (mid_curl g f s2 Rd2).
  assert (Q : Hx_at (f_ph s2) 3 3 = v / 2 /\ Hx_at (f_ph s2) 3 2 = - v / 2 /\ Hy_at (f_ph s2) 3 3 = - v / 2 /\ Hy_at (f_ph s2) 2 3 = v / 2).
  { unfold Hx_at, Hy_at in *. rewrite Fq. auto. }
  destruct Q as (Q1 & Q2 & Q3 & Q4). rewrite C1, C2, C3, C4, Q1, Q2, Q3, Q4. split; [lra|]. split; [lra|].
  (* no memory of earlier fields yet *)
  assert (Ha := ready_apart _ _ _ Rd). destruct (ready_good _ _ _ Rd) as [Hw Gg]. rewrite <- Gg in Ha.
  apply update_phys_step in E1. destruct (step_media _ _ Ha Hw E1) as (X0 & X1 & X2 & X3 & _ & K1 & K2 & K3 & _ & P1 & P2).
  destruct D as (_ & _ & D1 & D2 & D3). rewrite D1 in K1. rewrite D2 in K2. rewrite D3 in K3. cbn [polar_all] in *.
  injection K1 as -> _. injection K2 as -> _. injection K3 as -> _.
  assert (N0 : ph_prevE (f_ph s) = None /\ ph_prev2E (f_ph s) = None).
  { unfold mk_field in E0. apply bind_ok in E0. destruct E0 as (p & Ep & E0). cbn [String.eqb] in E0. apply bind_ok in E0. destruct E0 as (? & _ & E0).
    apply bind_ok in E0. destruct E0 as (? & _ & E0). injection E0 as <-. unfold mk_phys in Ep. inv_ok. 
    cbn [exec] in R'. unfold add_source in R'. apply prim_fine in R'. destruct R' as (? & _ & R'). injection R' as <-. split; reflexivity. }
  destruct N0 as [N1 N2]. rewrite N1 in P1. rewrite N2 in P2. auto 10.
Qed.

Lemma pulse_half : pulse_at (/ 2) (/ 2) = 1 /\ pulse_at (/ 2) 1 = 0.
Proof.
  unfold pulse_at, shape_val. rnumg. split.
  - replace (2 * PI * / 2 * / 2) with (PI / 2) by field. apply sin_PI2.
  - replace (2 * PI * / 2 * 1) with PI by field. apply sin_PI.
Qed.
Lemma pulse_third : 0 < pulse_at (/ 3) (/ 2) /\ pulse_at (/ 3) (3 / 2) = 0.
Proof.
  unfold pulse_at, shape_val. rnumg. split.
  - replace (2 * PI * / 3 * / 2) with (PI / 3) by field. apply sin_gt_0; assert (K := PI_RGT_0); lra.
  - replace (2 * PI * / 3 * (3 / 2)) with PI by field. apply sin_PI.
Qed.

Lemma mid_pos (g : grid) : g_dx g = 1 -> (g_dx g * IZR 3, g_dx g * IZR 3) = (3, 3).
Proof. intros ->. f_equal; lra. Qed.
Lemma brick_only (g : grid) k : g_dx g = 1 -> only_in [brick k] "stuff" k (g_dx g * IZR 3, g_dx g * IZR 3).
Proof.
  intros Hd. rewrite (mid_pos g Hd). exists (brick k). split; [now left|]. split; [reflexivity|]. split; [apply brick_in|].
  intros o' [<-|[]] _. reflexivity.
Qed.

(** ** C43: permeability *)
Definition magnet : simple := Simple 1 2 0.
Lemma magnet_witness : exists (g : grid) s s', mk_grid 8 8 1 1 = Ok g /\ apart g /\ reachable g s /\ 0 < g_dt g /\ ph_tfsf (f_ph s) = None /\ update s = Fine s' /\
  (g_pml g <= 3 < g_Nx g - 1 - g_pml g)%Z /\ (g_pml g <= 3 < g_Ny g - 1 - g_pml g)%Z /\
  undriven (ph_t (f_ph s) + g_dt g) g (ph_srcs (f_ph s)) Hx 3 3 /\ simple_only (f_ph s) magnet 3 3 /\
  ~ faraday (sm_mu magnet) (g_dt g) (Hx_at (f_ph s) 3 3) (Hx_at (f_ph s') 3 3) (curl_e_x (f_ph s') 3 3).
Proof.
  destruct (early_run (/ 2) (KSimple magnet)) as (g & s0 & s & Eg & E0 & R & Rd & T0 & D). specialize (D magnet eq_refl).
  assert (St : ph_step (f_ph s) = 0%Z). { assert (K := rd_t _ _ _ Rd). rewrite T0 in K. apply eq_IZR. rnum. lra. }
  destruct (ready_update g _ s Rd) as (s' & E & Rd' & _); [rewrite St; lia|].
  exists g, s, s'. assert (Hd := ready_dt _ _ _ Rd). assert (Gg' : ph_grid (f_ph s') = g) by apply (ready_good _ _ _ Rd').
  split; [exact Eg|]. split; [eapply ready_apart; exact Rd|]. split; [apply Rd|]. split; [rewrite Hd; lra|]. split; [apply Rd|]. split; [exact E|].
  rewrite (rd_Nx _ _ _ Rd), (rd_Ny _ _ _ Rd), (rd_pml _ _ _ Rd). split; [lia|]. split; [lia|].
  split; [eapply ready_undriven; [exact Rd|left; discriminate]|]. split.
  - assert (Md : made_of (f_ph s) (KSimple magnet) 3 3).
    { apply (run_made g "out" s0 s [AddSource (flash (/ 2)); AddObject (brick (KSimple magnet))] 3 3 (rd_ok _ _ _ Rd) E0 R); try reflexivity;
        try (rewrite (rd_Nx _ _ _ Rd); lia); try (rewrite (rd_Ny _ _ _ Rd); lia).
      - intros [K|[K|[]]]; discriminate.
      - repeat constructor.
      - apply only_at with (nm := "stuff"%string). apply (brick_only g _ (rd_dx _ _ _ Rd)). }
    destruct D as (_ & _ & D1 & D2 & D3). split; [exact Md|]. unfold no_strength. rewrite D1, D2. repeat split; auto; intros ? ? ? [].
  - destruct (first_curl g _ s s' Rd D E Rd') as (C1 & _). rewrite T0, Rplus_0_l, (proj1 pulse_half) in C1.
    assert (V := fun i j => first_light g _ s s' i j Rd D E). rewrite T0, Rplus_0_l, (proj1 pulse_half) in V.
    unfold faraday, curl_e_x. rewrite Gg', (rd_dx _ _ _ Rd), Hd, C1. change (3 + 1)%Z with 4%Z. rewrite (V 3%Z 3%Z), (V 3%Z 4%Z) by lia.
    cbn [Z.eqb Pos.eqb andb magnet sm_mu]. destruct D as (D & _). destruct (D 3%Z 3%Z) as (_ & -> & _). lra.
Qed.

(** ** C46: one Lorentz pole *)
Definition resonant : lorentz := Lorentz 1 [LPole 1 1 0].
Lemma lorentz_witness : exists (g : grid) s q s' q', mk_grid 8 8 1 1 = Ok g /\ apart g /\ reachable g s /\ 0 < g_dt g /\ ph_tfsf (f_ph s) = None /\ update s = Fine s' /\
  (1 <= 3 < g_Nx g - 1)%Z /\ (1 <= 3 < g_Ny g - 1)%Z /\
  undriven (ph_t (f_ph s) + g_dt g) g (ph_srcs (f_ph s)) Ez 3 3 /\ lorentz_only (f_ph s) "stuff" resonant q 3 3 /\
  ph_lorentz (f_ph s') = [("stuff"%string, (resonant, q'))] /\
  ~ ampere (lo_eps resonant) (g_dt g) (Ez_at (f_ph s) 3 3) (Ez_at (f_ph s') 3 3) (curl_at (f_ph s) 3 3) (J_at q 3 3 0) (J_at q' 3 3 0).
Proof.
  destruct (late_run (/ 2) (brick (KLorentz resonant)) (KLorentz resonant) (or_introl eq_refl))
    as (g & s0 & s1 & s2 & Eg & E0 & R1 & E2 & R2 & Rd1 & Rd2 & Fq & St1 & St2 & V & C1 & C2 & P1 & P2 & _).
  destruct (ready_update g _ s2 Rd2) as (s' & E & Rd' & _); [rewrite St2; lia|].
  assert (Hd := ready_dt _ _ _ Rd2). destruct (ready_good _ _ _ Rd2) as [Hw Gg].
  destruct (run_lorentz g "out" s0 s2 [AddSource (flash (/ 2)); Update; AddObject (brick (KLorentz resonant))] 3 3 (rd_ok _ _ _ Rd2) E0 R2) with (nm := "stuff"%string) (x := resonant)
    as [q Ho]; try reflexivity; try (rewrite (rd_Nx _ _ _ Rd2); lia); try (rewrite (rd_Ny _ _ _ Rd2); lia).
  { intros [K|[K|[K|[]]]]; discriminate. } { repeat constructor. } { apply (brick_only g _ (rd_dx _ _ _ Rd2)). } { intros o y [<-|[]] _. reflexivity. }
  assert (U : undriven (ph_t (f_ph s2) + g_dt g) g (ph_srcs (f_ph s2)) Ez 3 3).
  { eapply ready_undriven; [exact Rd2|]. right; right. rewrite (rd_t _ _ _ Rd2), St2, Hd. replace (1 / 2 + / 2) with 1 by lra. apply pulse_half. }
  assert (Ha := ready_apart _ _ _ Rd2). assert (Es := update_phys_step _ _ E). assert (Of := off_none _ 3 3 (rd_tfsf _ _ _ Rd2)).
  destruct (lorentz_one_pole (f_ph s2) (f_ph s') 3 3) with (nm := "stuff"%string) (x := resonant) (q := q) (d := LPole 1 1 0)
    as (q' & e2 & En & H2 & _ & _ & Law); try rewrite Gg; auto; try apply Rd2; try (rewrite (rd_Nx _ _ _ Rd2); lia); try (rewrite (rd_Ny _ _ _ Rd2); lia).
  { apply (reachable_tame g s2 (rd_reach _ _ _ Rd2)). } { rewrite Hd. lra. } { cbn. lra. } { split; cbn; lra. }
  exists g, s2, q, s', q'. split; [exact Eg|]. split; [exact Ha|]. split; [apply Rd2|]. split; [rewrite Hd; lra|]. split; [apply Rd2|]. split; [exact E|].
  rewrite (rd_Nx _ _ _ Rd2), (rd_Ny _ _ _ Rd2). split; [lia|]. split; [lia|]. split; [exact U|]. split; [exact Ho|]. split; [exact En|].
  assert (K : e2 = fEz (ph_F (f_ph s1))).
  { apply add_object_ph in E2. unfold phys_add_object in E2. apply bind_ok in E2. destruct E2 as (a & A & E2). apply bind_ok in E2. destruct E2 as (b & B & E2). injection E2 as E2.
    unfold paint_phys in A. apply bind_ok in A. destruct A as (c & _ & A). injection A as <-. unfold insert_material in B. cbn [brick o_mat m_kind m_name] in B.
    apply bind_ok in B. destruct B as (P & _ & B). injection B as <-. rewrite <- E2 in H2. cbn in H2. rewrite P1 in H2. cbn in H2. now injection H2 as <-. }
  assert (Ve : tval e2 3 3 = 1). { rewrite K. change (tval (fEz (ph_F (f_ph s1))) 3 3) with (Ez_at (f_ph s1) 3 3). rewrite V. apply pulse_half. }
  unfold ampere. rewrite Gg, Ve in Law. intros A. rewrite A in Law.
  assert (S : lorentz_delta1 (g_dt g) (LPole 1 1 0) = / 4).
  { unfold lorentz_delta1. cbn [lp_deps lp_omega lp_gamma]. rewrite Hd. rnumg. change (Z.to_nat 2) with 2%nat. field. }
  rewrite S, Hd in Law. cbn [resonant lo_eps] in Law. lra.
Qed.

(** ** C48: a Lorentz object elsewhere *)
Lemma outside_witness : exists (g : grid) s s1 s2 s2', mk_grid 8 8 1 1 = Ok g /\ apart g /\ reachable g s /\ ph_tfsf (f_ph s) = None /\
  exec (AddObject (far (KLorentz resonant))) s = Fine s2 /\ update s = Fine s1 /\ update s2 = Fine s2' /\
  (0 <= 3 < g_Nx g)%Z /\ (0 <= 3 < g_Ny g)%Z /\ obj_inside (far (KLorentz resonant)) (to_real g (3, 3)%Z) = false /\
  Ez_at (f_ph s2') 3 3 <> Ez_at (f_ph s1) 3 3.
Proof.
  destruct (late_run (/ 2) (far (KLorentz resonant)) (KLorentz resonant) (or_intror eq_refl))
    as (g & s0 & s & s2 & Eg & E0 & R1 & E2 & R2 & Rd1 & Rd2 & Fq & St1 & St2 & V & C1 & C2 & P1 & P2 & D1 & D2 & D3).
  destruct (ready_update g _ s Rd1) as (s1 & U1 & Rd1' & _); [rewrite St1; lia|].
  destruct (ready_update g _ s2 Rd2) as (s2' & U2 & Rd2' & _); [rewrite St2; lia|].
  assert (Out : obj_inside (far (KLorentz resonant)) (to_real g (3, 3)%Z) = false).
  { destruct (obj_inside _ _) eqn:K; [|reflexivity]. apply obj_inside_iff in K. exfalso. unfold to_real in K. cbn [fst snd] in K.
    apply (far_out (KLorentz resonant)). rewrite <- (mid_pos g (rd_dx _ _ _ Rd1)). exact K. }
  exists g, s, s1, s2, s2'. split; [exact Eg|]. split; [eapply ready_apart; exact Rd1|]. split; [apply Rd1|]. split; [apply Rd1|].
  split; [exact E2|]. split; [exact U1|]. split; [exact U2|]. rewrite (rd_Nx _ _ _ Rd1), (rd_Ny _ _ _ Rd1). split; [lia|]. split; [lia|]. split; [exact Out|].
  assert (Hd := ready_dt _ _ _ Rd1). destruct (ready_good _ _ _ Rd1) as [Hw Gg]. destruct (ready_good _ _ _ Rd2) as [Hw2 Gg2].
  assert (Ha := ready_apart _ _ _ Rd1). apply update_phys_step in U1, U2.
  assert (Ha1 : apart (ph_grid (f_ph s))) by now rewrite Gg. assert (Ha2 : apart (ph_grid (f_ph s2))) by now rewrite Gg2.
  destruct (step_cell (f_ph s) _ 3 3 Ha1 Hw (reachable_tame g s (rd_reach _ _ _ Rd1)) U1) as (L1 & HL1 & V1);
    [rewrite Gg, (rd_Nx _ _ _ Rd1); lia|rewrite Gg, (rd_Ny _ _ _ Rd1); lia|].
  destruct (step_cell (f_ph s2) _ 3 3 Ha2 Hw2 (reachable_tame g s2 (rd_reach _ _ _ Rd2)) U2) as (L2 & HL2 & V2);
    [rewrite Gg2, (rd_Nx _ _ _ Rd1); lia|rewrite Gg2, (rd_Ny _ _ _ Rd1); lia|].
  rewrite (rd_tfsf _ _ _ Rd1) in V1. rewrite (rd_tfsf _ _ _ Rd2) in V2. unfold tf in V1, V2.
  rewrite Gg in V1, HL1. rewrite Gg2 in V2, HL2. apply add_object_ph in E2.
  assert (Ee := add_object_eE (f_ph s) (f_ph s2) _ 3 3 E2 ltac:(rewrite Gg; exact Out)). rewrite Gg in Ee. cbn zeta in Ee.
  rewrite (ready_lit g _ s L1 Ez 3 3 _ _ Rd1 HL1) in V1. rewrite (ready_lit g _ s2 L2 Ez 3 3 _ _ Rd2 HL2) in V2.
  cbn [comp_eqb Z.eqb Pos.eqb andb] in V1, V2. rewrite Ee in V2.
  assert (T : ph_t (f_ph s2) = ph_t (f_ph s)) by (rewrite (rd_t _ _ _ Rd1), (rd_t _ _ _ Rd2), St1, St2; reflexivity).
  assert (K1 : taken (f_ph s) 3 3 = 0). { unfold taken. rewrite D1, D2, D3. cbn [loads]. lra. }
  assert (K2 : taken (f_ph s2) 3 3 <> 0).
  { unfold phys_add_object in E2. apply bind_ok in E2. destruct E2 as (a & A & E2). apply bind_ok in E2. destruct E2 as (b & B & E2). injection E2 as E2.
    unfold paint_phys in A. apply bind_ok in A. destruct A as (c & _ & A). injection A as <-. unfold insert_material in B. cbn [far o_mat m_kind m_name] in B.
    apply bind_ok in B. destruct B as (P & HP & B). injection B as <-. cbn in HP. rewrite D3 in HP. unfold add_polar in HP. cbn [slookup] in HP.
    apply bind_ok in HP. destruct HP as (q0 & Hq0 & HP). apply bind_ok in HP. destruct HP as (q & Hq & HP). injection HP as <-.
    assert (Z0 : (0 <= pl_n q0)%Z /\ (forall i j k, t3val (pl_J q0) i j k = 0) /\ forall i j k, t3val (pl_pJ q0) i j k = 0).
    { unfold mk_polar in Hq0. apply bind_ok in Hq0. destruct Hq0 as (z & Hz & Hq0). injection Hq0 as <-. unfold t3const in Hz.
      destruct (_ && _); [|discriminate]. injection Hz as <-. cbn. split; [lia|split; reflexivity]. }
    destruct Z0 as (Z0 & ZJ & ZP). apply insert_polar_cells in Hq; [|exact Z0]. destruct Hq as (_ & _ & _ & _ & _ & QJ & QP & _).
    assert (L : lorentz_load g 3 3 resonant q 1 = - / 18).
    { unfold lorentz_load, J_at. rewrite QJ, QP. change (List.length (lo_poles resonant)) with 1%nat. cbn [rsum]. rewrite ZJ, ZP.
      unfold lorentz_Ca_prev, lorentz_delta, nsum. cbn [lo_poles resonant map fold_left lo_eps]. unfold lorentz_delta1. cbn [lp_deps lp_omega lp_gamma].
      rewrite Hd. rnumg. change (Z.to_nat 2) with 2%nat. field. }
    assert (Q : ph_debye (f_ph s2) = [] /\ ph_drude (f_ph s2) = [] /\ ph_lorentz (f_ph s2) = [("stuff"%string, (resonant, q))] /\
      ph_prevE (f_ph s2) = Some (fEz (ph_F (f_ph s))) /\ ph_prev2E (f_ph s2) = Some (fEz (ph_F (f_ph s)))).
    { rewrite <- E2. cbn. rewrite D1, D2, P1, P2. auto. }
    destruct Q as (Q1 & Q2 & Q3 & Q4 & Q5). unfold taken, back. rewrite Gg2, Q1, Q2, Q3, Q4, Q5. cbn [loads past].
    change (tval (fEz (ph_F (f_ph s))) 3 3) with (Ez_at (f_ph s) 3 3). rewrite V, (proj1 pulse_half), L. lra. }
  rewrite V1, V2, T, K1. intros K. apply K2. rnum. lra.
Qed.

(** ** C47: two Debye poles *)
Definition two_poles : debye := Debye 1 [DPole 1 1; DPole 1 1].
Lemma poles_witness : exists (g : grid) s n q s' q' d, mk_grid 8 8 1 1 = Ok g /\ apart g /\ reachable g s /\ 0 < g_dt g /\ ph_tfsf (f_ph s) = None /\ update s = Fine s' /\
  (1 <= 3 < g_Nx g - 1)%Z /\ (1 <= 3 < g_Ny g - 1)%Z /\
  undriven (ph_t (f_ph s) + g_dt g) g (ph_srcs (f_ph s)) Ez 3 3 /\ debye_only (f_ph s) n "stuff" two_poles q 3 3 /\
  entry (ph_debye (f_ph s')) n "stuff" two_poles q' /\ nth_error (db_poles two_poles) 0 = Some d /\
  ~ debye_law (dp_deps d) (dp_tau d) (g_dt g) (Ez_at (f_ph s) 3 3) (Ez_at (f_ph s') 3 3) (J_at q 3 3 0) (J_at q' 3 3 0).
Proof.
  destruct (late_run (/ 3) (brick (KDebye two_poles)) (KDebye two_poles) (or_introl eq_refl))
    as (g & s0 & s1 & s2 & Eg & E0 & R1 & E2 & R2 & Rd1 & Rd2 & Fq & St1 & St2 & V & C1 & C2 & P1 & P2 & D1 & D2 & D3).
  destruct (ready_update g _ s2 Rd2) as (s3 & U3 & Rd3 & St3 & _); [rewrite St2; lia|].
  destruct (ready_update g _ s3 Rd3) as (s4 & U4 & Rd4 & _); [rewrite St3, St2; lia|].
  assert (R3 : run [AddSource (flash (/ 3)); Update; AddObject (brick (KDebye two_poles)); Update] s0 = Fine s3).
  { change [AddSource (flash (/ 3)); Update; AddObject (brick (KDebye two_poles)); Update] with ([AddSource (flash (/ 3)); Update; AddObject (brick (KDebye two_poles))] ++ [Update]).
    rewrite run_app, R2. cbn [obind run exec]. now rewrite U3. }
  assert (Hd := ready_dt _ _ _ Rd2). destruct (ready_good _ _ _ Rd2) as [Hw Gg]. destruct (ready_good _ _ _ Rd3) as [Hw3 Gg3].
  assert (Ha := ready_apart _ _ _ Rd2). assert (Ok8 := rd_ok _ _ _ Rd2). assert (Nx := rd_Nx _ _ _ Rd2). assert (Ny := rd_Ny _ _ _ Rd2).
  assert (Bo := brick_only g (KDebye two_poles) (rd_dx _ _ _ Rd2)).
  destruct (run_debye g "out" s0 s2 [AddSource (flash (/ 3)); Update; AddObject (brick (KDebye two_poles))] 3 3 Ok8 E0 R2) with (nm := "stuff"%string) (x := two_poles)
    as (n & q & Ho); try reflexivity; try lia; auto.
  { intros [K|[K|[K|[]]]]; discriminate. } { repeat constructor. } { intros o y [<-|[]]; discriminate. }
  destruct (run_debye g "out" s0 s3 [AddSource (flash (/ 3)); Update; AddObject (brick (KDebye two_poles)); Update] 3 3 Ok8 E0 R3) with (nm := "stuff"%string) (x := two_poles)
    as (n3 & q3 & Ho3); try reflexivity; try lia; auto.
  { intros [K|[K|[K|[K|[]]]]]; discriminate. } { repeat constructor. } { intros o y [<-|[]]; discriminate. }
  assert (S3 : NoDup (map fst (ph_debye (f_ph s3)))).
  { assert (K := run_str g "out" s0 s3 [AddSource (flash (/ 3)); Update; AddObject (brick (KDebye two_poles)); Update] Ok8 E0 R3 eq_refl).
    assert (K1 : ~ In ClearFields [AddSource (flash (/ 3)); Update; AddObject (brick (KDebye two_poles)); Update]) by (intros [X|[X|[X|[X|[]]]]]; discriminate).
    specialize (K K1 ltac:(repeat constructor)). destruct K as (_ & (K & _) & _). exact K. }
  (* no currents yet *)
  assert (J0 : forall k, J_at q 3 3 k = 0).
  { apply add_object_ph in E2. unfold phys_add_object in E2. apply bind_ok in E2. destruct E2 as (a & A & E2). apply bind_ok in E2. destruct E2 as (b & B & E2). injection E2 as E2.
    unfold paint_phys in A. apply bind_ok in A. destruct A as (c & _ & A). injection A as <-. unfold insert_material in B. cbn [brick o_mat m_kind m_name] in B.
    apply bind_ok in B. destruct B as (P & HP & B). injection B as <-. cbn in HP. rewrite D1 in HP. unfold add_polar in HP. cbn [slookup] in HP.
    apply bind_ok in HP. destruct HP as (q0 & Hq0 & HP). apply bind_ok in HP. destruct HP as (qn & Hq & HP). injection HP as <-.
    assert (Z0 : (0 <= pl_n q0)%Z /\ (forall i j k, t3val (pl_J q0) i j k = 0)).
    { unfold mk_polar in Hq0. apply bind_ok in Hq0. destruct Hq0 as (z & Hz & Hq0). injection Hq0 as <-. unfold t3const in Hz.
      destruct (_ && _); [|discriminate]. injection Hz as <-. cbn. split; [lia|reflexivity]. }
    destruct Z0 as (Z0 & ZJ). apply insert_polar_cells in Hq; [|exact Z0]. destruct Hq as (_ & _ & _ & _ & _ & QJ & _).
    assert (Q : q = qn). { destruct Ho as (_ & En & _). unfold entry in En. rewrite <- E2 in En. cbn in En. destruct n as [|[|n]]; cbn in En; try discriminate. now injection En as ->. }
    intros k. unfold J_at. rewrite Q, QJ. apply ZJ. }
  assert (Of2 := off_none _ 3 3 (rd_tfsf _ _ _ Rd2)). assert (Of3 := off_none _ 3 3 (rd_tfsf _ _ _ Rd3)).
  destruct (debye_raw (f_ph s2) (f_ph s3) 3 3) with (n := n) (nm := "stuff"%string) (x := two_poles) (q := q)
    as (q3' & e1 & En3 & _ & _ & _ & JJ); try rewrite Gg; auto; try apply Rd2; try lia.
  { apply (reachable_tame g s2 (rd_reach _ _ _ Rd2)). } { now apply update_phys_step. }
  assert (n3 = n) by (eapply nodup_nth; [exact S3|apply Ho3|exact En3]). subst n3.
  assert (q3 = q3'). { destruct Ho3 as (_ & K & _). unfold entry in *. rewrite K in En3. now injection En3. } subst q3'.
  assert (J3 : J_at q3 3 3 1 <> 0).
  { specialize (JJ 1%nat (DPole 1 1) eq_refl). change (Z.of_nat 1) with 1%Z in JJ. rewrite JJ, J0. cbn [rsum]. unfold debye_share. rewrite !J0, C2, Gg, Hd.
    unfold debye_beta1, debye_Cb, debye_beta, nsum. cbn [two_poles db_poles db_eps map fold_left dp_tau dp_deps]. unfold debye_beta1. cbn [dp_tau dp_deps]. rnumg.
    assert (K := proj1 pulse_third). set (v := pulse_at (/ 3) (/ 2)) in *. intros A. field_simplify in A. lra. }
  assert (U : undriven (ph_t (f_ph s3) + g_dt g) g (ph_srcs (f_ph s3)) Ez 3 3).
  { eapply ready_undriven; [exact Rd3|]. right; right. rewrite (rd_t _ _ _ Rd3), St3, St2, Hd. change (IZR (1 + 1)) with 2. replace (2 / 2 + / 2) with (3 / 2) by lra. apply pulse_third. }
  destruct (debye_solves (f_ph s3) (f_ph s4) 3 3) with (n := n) (nm := "stuff"%string) (x := two_poles) (q := q3)
    as (q4 & Jx & En4 & Law & _ & JJ4); try rewrite Gg3; auto; try apply Rd3; try lia.
  { apply (reachable_tame g s3 (rd_reach _ _ _ Rd3)). } { now apply update_phys_step. } { rewrite Hd. lra. } { cbn. lra. }
  { repeat constructor; cbn; lra. }
  exists g, s3, n, q3, s4, q4, (DPole 1 1). split; [exact Eg|]. split; [exact Ha|]. split; [apply Rd3|]. split; [rewrite Hd; lra|]. split; [apply Rd3|].
  split; [exact U4|]. split; [lia|]. split; [lia|]. split; [exact U|]. split; [exact Ho3|]. split; [exact En4|]. split; [reflexivity|].
  specialize (Law 0%nat (DPole 1 1) eq_refl). specialize (JJ4 0%nat (DPole 1 1) eq_refl). change (Z.of_nat 0) with 0%Z in *. cbn [dp_deps dp_tau] in *.
  change (List.length (db_poles two_poles) - 1)%nat with 1%nat in JJ4. cbn [rsum Nat.add] in JJ4. rewrite Gg3 in *.
  unfold debye_law in *. rewrite Hd in *. intros Law'.
  assert (E4 : J_at q4 3 3 0 = Jx 0%nat) by lra.
  assert (Sh : debye_share (f_ph s3) 3 3 two_poles q3 1 <> 0).
  { unfold debye_share. rewrite Gg3, Hd. change (Z.of_nat 1) with 1%Z. unfold debye_Cb, debye_beta, debye_kappa, nsum. cbn [two_poles db_poles db_eps map fold_left nth dp_tau dp_deps].
    unfold debye_beta1, debye_kappa1. cbn [dp_tau dp_deps]. rnumg. intros A. apply J3. field_simplify in A. lra. }
  assert (Be : debye_beta1 (/ 2) (DPole 1 1) = 2 / 5) by (unfold debye_beta1; cbn [dp_tau dp_deps]; rnumg; field).
  rewrite Be in JJ4. apply Sh. rewrite E4 in JJ4. lra.
Qed.
