(** Two programs that differ in the order of the poles of one object: a Debye medium (same fields)
    and a Lorentz medium (different fields). *)
From Coq Require Import ZArith Reals List Bool String Lia Psatz Permutation.
From Verif Require Import Scalar Base BaseFacts VecM GridM GeometryM MaterialM PmlM DftM TfsfM PolarM
  InterpM H5M ClockM MonitorM FieldM SpecGrid GridFacts SpecGeometry GeometryFacts OutFacts PhysFacts
  SpecPaint PaintFacts WfFacts ReachFacts SafetyFacts SpecSafety SafeFacts SpecStep StepFacts EngineFacts YeeFacts SpecSource SpecMedium PolarFacts FullStep SpecRim MediumFacts StrengthFacts
  SpecMedia MediaFacts MediaRun SpecMaterial MaterialFacts OutsideFacts MagnetFacts ExampleFacts ExampleSrc PaintSafe ExampleMedia RefuteMedia
  SpecTrace TraceFacts CellFacts RefuteTrace MediaCases SpecOrder.
Import ListNotations.
Local Open Scope R_scope.
#[local] Existing Instance RNum.

Lemma brick_run k n : (n < 40)%nat -> exists (g : grid) s0 s, mk_grid 8 8 1 1 = Ok g /\ mk_field g "out" = Ok s0 /\
  run (brick_cmds k ++ repeat Update n) s0 = Fine s /\ ready g (/ 2) s /\ ph_step (f_ph s) = Z.of_nat (S n).
Proof.
  intros Hn. destruct (late_run (/ 2) (brick k) k (or_introl eq_refl)) as (g & s0 & s1 & s2 & Eg & E0 & R1 & E2 & R2 & Rd1 & Rd2 & Fq & St1 & St2 & _).
  induction n as [|n IH].
  - exists g, s0, s2. split; [exact Eg|]. split; [exact E0|]. split; [exact R2|]. auto.
  - destruct IH as (g' & s0' & s & Eg' & E0' & R & Rd & St); [lia|]. destruct (ready_update g' _ s Rd) as (s' & E & Rd' & St' & _); [lia|].
    exists g', s0', s'. split; [exact Eg'|]. split; [exact E0'|]. split; [|split; [exact Rd'|lia]].
    cbn [repeat]. rewrite repeat_cons, app_assoc, run_app, R. cbn [obind run exec]. rewrite E. reflexivity.
Qed.
Lemma brick_like k k' : reordered k k' -> obj_but reordered (brick k) (brick k').
Proof. intros H. repeat split. exact H. Qed.

(** the two states after one and two steps of a brick with two Lorentz poles *)
Definition pair_of (a b : lpole) : lorentz := Lorentz 1 [a; b].
Lemma two_steps a b : exists (g : grid) s0 s1 s2, mk_grid 8 8 1 1 = Ok g /\ mk_field g "out" = Ok s0 /\
  run (brick_cmds (KLorentz (pair_of a b)) ++ [Update]) s0 = Fine s1 /\
  run (brick_cmds (KLorentz (pair_of a b)) ++ [Update; Update]) s0 = Fine s2 /\
  curl_at (f_ph s1) 3 3 = Hy_at (f_ph s1) 3 3 - Hy_at (f_ph s1) 2 3 + Hx_at (f_ph s1) 3 2 - Hx_at (f_ph s1) 3 3 /\
  let x := pair_of a b in
  let c := lorentz_Cb x (/ 2) in
  let p := lorentz_Ca_prev x (/ 2) in
  let e := lorentz_Ca x (/ 2) - 2 * c in
  Ez_at (f_ph s2) 3 3 = lorentz_Ca x (/ 2) * Ez_at (f_ph s1) 3 3 + c * curl_at (f_ph s1) 3 3 + pulse_at (/ 2) (3 / 2)
    - (c / 2 * ((1 + lorentz_alpha1 (/ 2) a) * (lorentz_delta1 (/ 2) a * (e + p - 1))) - p
     + (c / 2 * ((1 + lorentz_alpha1 (/ 2) b) * (lorentz_delta1 (/ 2) b * (e + 2 * p - 1))) - p)).
Proof.
  set (x := pair_of a b).
  destruct (late_run (/ 2) (brick (KLorentz x)) (KLorentz x) (or_introl eq_refl))
    as (g & s0 & r & s & Eg & E0 & R1 & E2 & R2 & Rd1 & Rd & Fq & St1 & St & V & C1 & C2 & P1 & P2 & D1 & D2 & D3).
  destruct (ready_update g _ s Rd) as (s1 & U1 & Rdn & Stn & _); [rewrite St; lia|].
  destruct (ready_update g _ s1 Rdn) as (s2 & U2 & Rdm & _ & _); [rewrite Stn, St; lia|].
  assert (Hd := ready_dt _ _ _ Rd). destruct (ready_good _ _ _ Rd) as [Hw Gg]. destruct (ready_good _ _ _ Rdn) as [Hwn Ggn].
  destruct (run_lorentz g "out" s0 s [AddSource (flash (/ 2)); Update; AddObject (brick (KLorentz x))] 3 3 (rd_ok _ _ _ Rd) E0 R2) with (nm := "stuff"%string) (x := x)
    as [q Ho]; try reflexivity; try (rewrite (rd_Nx _ _ _ Rd); lia); try (rewrite (rd_Ny _ _ _ Rd); lia).
  { intros [K|[K|[K|[]]]]; discriminate. } { repeat constructor. } { apply (brick_only g _ (rd_dx _ _ _ Rd)). } { intros o y [<-|[]] _. reflexivity. }
  assert (U : undriven (ph_t (f_ph s) + g_dt g) g (ph_srcs (f_ph s)) Ez 3 3).
  { eapply ready_undriven; [exact Rd|]. right; right. rewrite (rd_t _ _ _ Rd), St, Hd. replace (1 / 2 + / 2) with 1 by lra. apply pulse_half. }
  assert (Ha := ready_apart _ _ _ Rd). assert (Es := update_phys_step _ _ U1). assert (Of := off_none _ 3 3 (rd_tfsf _ _ _ Rd)).
  (* a new polarization, and the field kept for it *)
  assert (Fresh : (forall k, (J_at q 3 3 k = 0) /\ t3val (pl_pJ q) 3 3 k = 0) /\ ph_prevE (f_ph s) = Some (fEz (ph_F (f_ph r))) /\ ph_debye (f_ph s) = [] /\ ph_drude (f_ph s) = []).
  { destruct Ho as (_ & En & _). apply add_object_ph in E2. unfold phys_add_object in E2. apply bind_ok in E2. destruct E2 as (u & A & E2). apply bind_ok in E2. destruct E2 as (w & B & E2). injection E2 as E2.
    unfold paint_phys in A. apply bind_ok in A. destruct A as (c & _ & A). injection A as <-. unfold insert_material in B. cbn [brick o_mat m_kind m_name] in B.
    apply bind_ok in B. destruct B as (P & HP & B). injection B as <-. cbn in HP. rewrite D3 in HP. unfold add_polar in HP. cbn [slookup] in HP.
    apply bind_ok in HP. destruct HP as (q0 & Hq0 & HP). apply bind_ok in HP. destruct HP as (q1 & Hq & HP). injection HP as <-.
    assert (Z0 : (0 <= pl_n q0)%Z /\ (forall i j k, t3val (pl_J q0) i j k = 0) /\ forall i j k, t3val (pl_pJ q0) i j k = 0).
    { unfold mk_polar in Hq0. apply bind_ok in Hq0. destruct Hq0 as (z & Hz & Hq0). injection Hq0 as <-. unfold t3const in Hz.
      destruct (_ && _); [|discriminate]. injection Hz as <-. cbn. split; [lia|split; reflexivity]. }
    destruct Z0 as (Z0 & ZJ & ZP). apply insert_polar_cells in Hq; [|exact Z0]. destruct Hq as (_ & _ & _ & _ & _ & QJ & QP & _).
    rewrite <- E2 in En |- *. cbn in En |- *. rewrite P1, D1, D2. injection En as <-. split; [|auto]. intros k. unfold J_at. rewrite QJ, QP. auto. }
  destruct Fresh as (F0 & Pe & F1 & F2).
  assert (Ve : tval (fEz (ph_F (f_ph r))) 3 3 = 1). { change (tval (fEz (ph_F (f_ph r))) 3 3) with (Ez_at (f_ph r) 3 3). rewrite V. apply pulse_half. }
  assert (V1 : Ez_at (f_ph s) 3 3 = 1) by (unfold Ez_at; rewrite Fq; exact Ve).
  rewrite (proj1 pulse_half) in C2.
  destruct (lorentz_formula (f_ph s) (f_ph s1) 3 3) with (nm := "stuff"%string) (x := x) (q := q)
    as (q' & e2 & En & _ & H2 & _ & Hp & Hj); try rewrite Gg; auto; try apply Rd; try (rewrite (rd_Nx _ _ _ Rd); lia); try (rewrite (rd_Ny _ _ _ Rd); lia).
  { apply (reachable_tame g s (rd_reach _ _ _ Rd)). } 
  rewrite Pe in H2. injection H2 as <-. rewrite Ve, V1, C2, Gg, Hd in Hj.
  assert (Hj0 := Hj 0%nat a eq_refl). assert (Hj1 := Hj 1%nat b eq_refl). clear Hj. cbn [rsum] in Hj0, Hj1. unfold lorentz_share in Hj0, Hj1. rewrite Gg, Hd in Hj0, Hj1.
  change (Z.of_nat 0) with 0%Z in *. change (Z.of_nat 1) with 1%Z in *.
  destruct (F0 0%Z) as [A0 B0]. destruct (F0 1%Z) as [A1 B1]. rewrite ?A0, ?B0, ?A1, ?B1 in Hj0. rewrite ?A0, ?B0, ?A1, ?B1 in Hj1.
  assert (Hp0 := Hp 0%nat ltac:(cbn; lia)). assert (Hp1 := Hp 1%nat ltac:(cbn; lia)). change (Z.of_nat 0) with 0%Z in *. change (Z.of_nat 1) with 1%Z in *. rewrite A0 in Hp0. rewrite A1 in Hp1.
  (* the second step *)
  assert (Ha1 : apart (ph_grid (f_ph s))) by now rewrite Gg. assert (Han : apart (ph_grid (f_ph s1))) by now rewrite Ggn.
  destruct (step_media (f_ph s) (f_ph s1) Ha1 Hw Es) as (X0 & X1 & X2 & X3 & _ & K1 & K2 & _ & _ & PE & PE2). rewrite F1 in K1. rewrite F2 in K2. cbn [polar_all] in K1, K2. injection K1 as K1 _. injection K2 as K2 _.
  exists g, s0, s1, s2. split; [exact Eg|]. split; [exact E0|].
  assert (Q1 : run (brick_cmds (KLorentz x) ++ [Update]) s0 = Fine s1). { rewrite run_app. unfold brick_cmds. rewrite R2. cbn [obind run exec]. rewrite U1. reflexivity. }
  split; [exact Q1|]. split. { change [Update; Update] with ([Update] ++ [Update])%list. rewrite app_assoc, run_app, Q1. cbn [obind run exec]. rewrite U2. reflexivity. }
  split; [exact (mid_curl g _ s1 Rdn)|]. intros x' c p e. subst x'.
  apply update_phys_step in U2.
  destruct (step_cell (f_ph s1) _ 3 3 Han Hwn (reachable_tame g s1 (rd_reach _ _ _ Rdn)) U2) as (L1 & HL1 & W);
    [rewrite Ggn, (rd_Nx _ _ _ Rd); lia|rewrite Ggn, (rd_Ny _ _ _ Rd); lia|].
  rewrite (rd_tfsf _ _ _ Rdn) in W. unfold tf in W. rewrite Ggn in W, HL1.
  rewrite (ready_lit g _ s1 L1 Ez 3 3 _ _ Rdn HL1) in W. cbn [comp_eqb Z.eqb Pos.eqb andb] in W.
  assert (Tm : ph_t (f_ph s1) + g_dt g = 3 / 2) by (rewrite (rd_t _ _ _ Rdn), Stn, St, Hd; change (1 + 1)%Z with 2%Z; change (@T RNum) with R in *; field_simplify; lra).
  rnum. rewrite Tm in W. rewrite W. assert (Y := yee_value (f_ph s1) 3 3). rewrite Ggn in Y. rewrite Y; [|rewrite (rd_Nx _ _ _ Rd); lia|rewrite (rd_Ny _ _ _ Rd); lia].
  assert (M : mCa (med (f_ph s1)) 3%Z 3%Z = lorentz_Ca x (/ 2) /\ mCb (med (f_ph s1)) 3%Z 3%Z = lorentz_Cb x (/ 2)).
  { assert (Md : made_of (f_ph s1) (KLorentz x) 3 3).
    { apply (run_made g "out" s0 s1 (brick_cmds (KLorentz x) ++ [Update]) 3 3 (rd_ok _ _ _ Rd) E0 Q1); try reflexivity;
        try (rewrite (rd_Nx _ _ _ Rd); lia); try (rewrite (rd_Ny _ _ _ Rd); lia).
      - intros [K|[K|[K|[K|[]]]]]; discriminate.
      - repeat constructor.
      - apply only_at with (nm := "stuff"%string). apply (brick_only g _ (rd_dx _ _ _ Rd)). }
    destruct Md as [Md1 Md2]. rewrite Md1, Md2, Ggn, Hd. auto. }
  destruct M as [-> ->].
  assert (Tk : taken (f_ph s1) 3 3 = c / 2 * ((1 + lorentz_alpha1 (/ 2) a) * J_at q' 3 3 0) - p + (c / 2 * ((1 + lorentz_alpha1 (/ 2) b) * J_at q' 3 3 1) - p)).
  { unfold taken. rewrite <- K1, <- K2, En, Ggn. cbn [loads]. unfold back. rewrite PE, PE2.
    destruct (ph_prev2E (f_ph s)) as [z|] eqn:Z2; [|exfalso].
    - rewrite Pe. cbn [past]. change (tval (fEz (ph_F (f_ph s))) 3 3) with (Ez_at (f_ph s) 3 3). rewrite V1. unfold lorentz_load. change (List.length (lo_poles x)) with 2%nat. cbn [rsum].
      rewrite Hd. change (Z.of_nat 0) with 0%Z in *. change (Z.of_nat 1) with 1%Z in *. rewrite Hp0, Hp1. fold c p. cbn [x pair_of lo_poles lorentz_alpha lorentz_beta map nth]. rnumg. ring.
    - destruct (lorentz_step (f_ph s) (f_ph s1) 3 3) with (nm := "stuff"%string) (x := x) (q := q) as (_ & _ & _ & _ & e2 & _ & X & _); try rewrite Gg; auto;
        try apply Rd; try (rewrite (rd_Nx _ _ _ Rd); lia); try (rewrite (rd_Ny _ _ _ Rd); lia); [apply (reachable_tame g s (rd_reach _ _ _ Rd))|].
      rewrite PE2 in X. discriminate. }
  rewrite Tk, Hj0, Hj1. fold c p. unfold e. rnumg. change (@T RNum) with R in *. field.
Qed.

Definition weak : lpole := LPole 1 1 0.
Definition strong : lpole := LPole 1 2 0.
Lemma lorentz_order_fails : ~ (forall (g : grid) name s0 l l' s s', mk_field g name = Ok s0 -> Forall2 (cmd_but reordered_any) l l' ->
  run l s0 = Fine s -> run l' s0 = Fine s' -> ph_F (f_ph s') = ph_F (f_ph s)).
Proof.
  intros K. destruct (two_steps weak strong) as (g & s0 & s1 & s2 & Eg & E0 & R1 & R2 & C & V). destruct (two_steps strong weak) as (g' & s0' & t1 & t2 & Eg' & E0' & R1' & R2' & C' & V').
  rewrite Eg in Eg'. injection Eg' as <-. rewrite E0 in E0'. injection E0' as <-.
  assert (Ch : forall l, Forall2 (cmd_but reordered_any) (brick_cmds (KLorentz (pair_of weak strong)) ++ l) (brick_cmds (KLorentz (pair_of strong weak)) ++ l)).
  { intros l. apply Forall2_app; [|induction l; constructor; [constructor|assumption]]. constructor; [constructor|]. constructor; [constructor|]. constructor; [|constructor].
    apply cb_object. repeat split. apply ra_lorentz, perm_swap. }
  assert (F1 := K g _ s0 _ _ s1 t1 E0 (Ch _) R1 R1'). assert (F2 := K g _ s0 _ _ s2 t2 E0 (Ch _) R2 R2').
  rewrite C in V. rewrite C' in V'. unfold Ez_at, Hx_at, Hy_at in V, V'. rewrite F1, F2, V in V'.
  revert V'. generalize (tval (fEz (ph_F (f_ph s1))) 3 3). intros e.
  generalize (tval (fHy (ph_F (f_ph s1))) 3 3 - tval (fHy (ph_F (f_ph s1))) 2 3 + tval (fHx (ph_F (f_ph s1))) 3 2 - tval (fHx (ph_F (f_ph s1))) 3 3). intros h.
  assert (Da : lorentz_delta1 (/ 2) weak = / 4). { unfold lorentz_delta1, weak. cbn [lp_deps lp_omega lp_gamma]. rnumg. change (Z.to_nat 2) with 2%nat. field. }
  assert (Db : lorentz_delta1 (/ 2) strong = / 2). { unfold lorentz_delta1, strong. cbn [lp_deps lp_omega lp_gamma]. rnumg. change (Z.to_nat 2) with 2%nat. field. }
  assert (Aa : lorentz_alpha1 (/ 2) weak = 7 / 4). { unfold lorentz_alpha1, weak. cbn [lp_deps lp_omega lp_gamma]. rnumg. change (Z.to_nat 2) with 2%nat. field. }
  assert (Ab : lorentz_alpha1 (/ 2) strong = 7 / 4). { unfold lorentz_alpha1, strong. cbn [lp_deps lp_omega lp_gamma]. rnumg. change (Z.to_nat 2) with 2%nat. field. }
  rewrite Da, Db, Aa, Ab. unfold lorentz_Ca, lorentz_Cb, lorentz_Ca_prev, lorentz_delta, nsum, pair_of. cbn [lo_poles lo_eps map fold_left]. rewrite Da, Db. rnumg. intros X.
  change (@T RNum) with R in *. field_simplify in X; lra.
Qed.

(** the same two programs with Debye poles *)
Definition mixed : debye := Debye 1 [DPole 1 1; DPole 2 3; DPole 4 1].
Definition mixed' : debye := Debye 1 [DPole 4 1; DPole 1 1; DPole 2 3].
Lemma debye_order_case n : (n < 40)%nat -> exists (g : grid) s0 s s', mk_field g "out" = Ok s0 /\
  Forall2 (cmd_but reordered) (brick_cmds (KDebye mixed) ++ repeat Update n) (brick_cmds (KDebye mixed') ++ repeat Update n) /\
  run (brick_cmds (KDebye mixed) ++ repeat Update n) s0 = Fine s /\ run (brick_cmds (KDebye mixed') ++ repeat Update n) s0 = Fine s'.
Proof.
  intros Hn. destruct (brick_run (KDebye mixed) n Hn) as (g & s0 & s & Eg & E0 & R & _). destruct (brick_run (KDebye mixed') n Hn) as (g' & s0' & s' & Eg' & E0' & R' & _).
  rewrite Eg in Eg'. injection Eg' as <-. rewrite E0 in E0'. injection E0' as <-.
  exists g, s0, s, s'. split; [exact E0|]. split; [|auto].
  apply Forall2_app; [|clear; induction n; cbn [repeat]; constructor; [constructor|assumption]].
  constructor; [constructor|]. constructor; [constructor|]. constructor; [|constructor]. apply cb_object, brick_like, re_debye.
  apply (Permutation_app_comm [DPole 1 1; DPole 2 3] [DPole 4 1]).
Qed.
