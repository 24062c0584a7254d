(** No magnetic charge appears, in whatever order the calls come. *)
From Coq Require Import ZArith Reals String List Bool Lia Lra.
From Verif Require Import Scalar Base BaseFacts VecM GridM GeometryM MaterialM PmlM DftM TfsfM PolarM
  InterpM H5M ClockM MonitorM FieldM SpecGrid GridFacts OutFacts PhysFacts PaintFacts WfFacts ReachFacts InvFacts SpecStep StepFacts
  EngineFacts YeeFacts TextbookFacts SpecSource SourceFacts SpecMedium PolarFacts FullStep SpecRim MediumFacts SpecMaterial MediaFacts
  PmlFacts MagnetFacts SpecCharge.
Import ListNotations.
#[local] Existing Instance RNum.
Local Open Scope Z_scope.

Ltac cells := repeat match goal with
  | H : tget _ _ _ = Ok _ |- _ => apply tget_inv in H; destruct H as (_ & _ & ->)
  | H : tset _ _ _ _ = Ok _ |- _ => apply tset_inv in H; destruct H as (_ & _ & ->)
  | H : aget _ _ = Ok _ |- _ => apply aget_val in H; subst
  end.
(** one pass of the magnetic loop, cell by cell, wherever it finishes *)
Lemma H_loop_cells g C sc E X Y X' Y' : H_loop g C sc E X Y = Ok (X', Y') -> forall i j, 1 <= i < g_Nx g - 1 -> 1 <= j < g_Ny g - 1 ->
  (tval X' i j = tval (cDa C) i j * tval X i j - tval (cDb C) i j * (tval E i (j + 1) - tval E i j) / aval (khdy sc) j /\
   tval Y' i j = tval (cDa C) i j * tval Y i j + tval (cDb C) i j * (tval E (i + 1) j - tval E i j) / aval (khdx sc) i)%R.
Proof.
  intros H i j Hi Hj. unfold H_loop in H.
  apply (for2_cells_post (fun s i j => (tval (fst s) i j, tval (snd s) i j)) (fun _ => True)
    (fun i j => ((tval (cDa C) i j * tval X i j - tval (cDb C) i j * (tval E i (j + 1) - tval E i j) / aval (khdy sc) j)%R,
                 (tval (cDa C) i j * tval Y i j + tval (cDb C) i j * (tval E (i + 1) j - tval E i j) / aval (khdx sc) i)%R))) in H; [|exact Logic.I|].
  - destruct H as (_ & H & _). specialize (H i j Hi Hj). cbn [fst snd] in H. injection H; auto.
  - clear. intros i j [x y] [x' y'] Hi Hj _ H K. cbn [fst snd] in *. injection H as Hx Hy. unfold H_body in K. inv_ok.
    cells. rewrite ?Hx, ?Hy. split; [exact Logic.I|]. split; [rewrite !tupd_same; reflexivity|].
    intros i' j' Hn. now rewrite !tupd_other by exact Hn.
Qed.

Lemma feeds_pulse g r v F F' c i j : field_comp c -> pulse_field g (sr_c r) (sr_kind r) v F = Ok F' -> ~ feeds g r c i j ->
  fval F' c i j = fval F c i j.
Proof.
  intros Hc H U. destruct (pulse_field_cells _ _ _ _ _ _ H) as (L & HL & _ & V). rewrite V by exact Hc.
  destruct (comp_eqb (sr_c r) c) eqn:E; [|reflexivity].
  assert (Ec : sr_c r = c) by (destruct (sr_c r), c; cbn in E; congruence).
  assert (Un : ~ In (i, j) L) by (intros K; apply U; split; eauto).
  revert Un. generalize (fval F c i j). clear. unfold add_at.
  induction L as [|q L IH]; cbn [fold_left]; intros x U; [reflexivity|]. rewrite IH; [|intros K; apply U; now right].
  destruct (Z.eqb_spec (fst q) i), (Z.eqb_spec (snd q) j); cbn [andb]; try reflexivity. exfalso. apply U. left. destruct q. cbn in *. congruence.
Qed.

Section Charge.
Variables (g : grid) (i j : Z).
Hypothesis Hin : inner_square g i j.
Variables (c : pml_coef) (sc : scaling).
Hypothesis Sx : forall k, g_pml g <= k <= g_Nx g - 1 - g_pml g -> aval (khdx sc) k = (g_dx g * 1)%R.
Hypothesis Sy : forall k, g_pml g <= k <= g_Ny g - 1 - g_pml g -> aval (khdy sc) k = (g_dx g * 1)%R.

Definition off_square (o : option tfsf) : Prop := off_Hx o i j /\ off_Hx o (i + 1) j /\ off_Hy o i j /\ off_Hy o i (j + 1).
Record even (p : phys) : Prop := Even {
  ev_eng : engine p = (g, vacuum, mk_pml_par g, c, sc);
  ev_mag : nonmag g p;
  ev_src : Forall (fun r => spares g i j (AddSource r)) (ph_srcs p);
  ev_box : off_square (ph_tfsf p);
  ev_chg : charge p i j = 0%R }.

(** a step that leaves the magnetic cells, the sources and the box alone *)
Lemma even_same p p' : engine p' = engine p -> (nonmag g p -> nonmag g p') -> ph_srcs p' = ph_srcs p -> off_square (ph_tfsf p') ->
  fHx (ph_F p') = fHx (ph_F p) -> fHy (ph_F p') = fHy (ph_F p) -> even p -> even p'.
Proof.
  intros He Nm Hs Ho HX HY []. assert (Eg : ph_grid p' = ph_grid p) by (unfold engine in He; congruence).
  constructor; try congruence; auto. unfold charge, Hx_at, Hy_at in *. now rewrite HX, HY, Eg.
Qed.
Lemma line_off o o' : line o = Ok o' -> off_square o -> off_square o'.
Proof.
  unfold line, off_square, off_Hx, off_Hy. destruct o as [q|]; intros H; [|injection H as <-; auto].
  apply bind_ok in H. destruct H as (q' & H & E). injection E as <-. destruct (pulse_box _ _ H) as (-> & -> & -> & ->). auto.
Qed.
Lemma even_grid p : even p -> ph_grid p = g. Proof. intros H. assert (E := ev_eng p H). unfold engine in E. congruence. Qed.

Ltac stays H := refine (even_same _ _ _ _ _ _ _ _ H); try reflexivity; try exact (ev_box _ H).

Lemma even_keeps : keeps_for (spares g i j) even.
Proof.
  assert (KN := nonmag_keeps g). assert (KE := engine_keeps). destruct Hin as (I1 & I2 & I3 & I4). constructor.
  - intros p p' H E. stays H; [exact (k_clock _ _ (KE _) _ _ eq_refl E)|intros K; exact (k_clock _ _ KN _ _ K E)|..]; unfold step_clock in E; inv_ok; try reflexivity. exact (ev_box _ H).
  - intros p H. stays H; [exact (k_prev _ _ (KE _) _ eq_refl)|intros K; exact (k_prev _ _ KN _ K)|..]; unfold step_prev; destruct (ph_prev2E p); cbn; destruct (ph_prevE p) eqn:E1; cbn; try reflexivity; exact (ev_box _ H).
  - intros p p' H E. stays H; [exact (k_E _ _ (KE _) _ _ eq_refl E)|intros K; exact (k_E _ _ KN _ _ K E)|..]; unfold step_E in E; inv_ok; try reflexivity. exact (ev_box _ H).
  - intros p p' H E. stays H; [exact (k_pmlE _ _ (KE _) _ _ eq_refl E)|intros K; exact (k_pmlE _ _ KN _ _ K E)|..]; unfold step_pmlE in E; apply bind_ok in E; destruct E as ([b e] & _ & E); injection E as <-; try reflexivity. exact (ev_box _ H).
  - intros p p' H E. destruct (step_polar_frame _ _ E) as (_ & A & B & D & F & _).
    stays H; [exact (k_polar _ _ (KE _) _ _ eq_refl E)|intros K; exact (k_polar _ _ KN _ _ K E)|assumption| |assumption..]. rewrite D. exact (ev_box _ H).
  - intros p p' H E. destruct (step_tfsfD_frame _ _ E) as (_ & A & B & D & F & _).
    stays H; [exact (k_tfsfD _ _ (KE _) _ _ eq_refl E)|intros K; exact (k_tfsfD _ _ KN _ _ K E)|assumption| |assumption..]. rewrite D. exact (ev_box _ H).
  - intros p l [] [E|(r & Hr & ->)]; constructor; try assumption; cbn [ph_srcs set_ph_srcs].
    + apply Forall_forall. intros r Hr. assert (Hp : In (src_place r) (map src_place (ph_srcs p))) by (rewrite <- E; now apply in_map).
      apply in_map_iff in Hp. destruct Hp as (r' & Ep & Hr'). rewrite Forall_forall in ev_src0. specialize (ev_src0 r' Hr').
      injection Ep as E1 E2. cbn [spares] in *. unfold feeds in *. now rewrite E1, E2 in ev_src0.
    + apply Forall_app. auto.
  - intros p r v F H Hr E. assert (Hg := even_grid p H). destruct H. constructor; try assumption.
    rewrite Forall_forall in ev_src0. destruct (ev_src0 r Hr) as (A1 & A2 & A3 & A4). rewrite Hg in E.
    assert (Cx : field_comp Hx) by (unfold field_comp; auto). assert (Cy : field_comp Hy) by (unfold field_comp; auto).
    assert (B1 := feeds_pulse _ _ _ _ _ _ _ _ Cx E A1). assert (B2 := feeds_pulse _ _ _ _ _ _ _ _ Cx E A2).
    assert (B3 := feeds_pulse _ _ _ _ _ _ _ _ Cy E A3). assert (B4 := feeds_pulse _ _ _ _ _ _ _ _ Cy E A4).
    cbn [fval] in *. unfold charge, Hx_at, Hy_at in *. cbn [ph_F set_ph_F ph_grid]. now rewrite B1, B2, B3, B4.
  - intros p p' H E. destruct (step_tfsf_pulse_frame _ _ E) as (_ & A & B & _).
    stays H; [exact (k_line _ _ (KE _) _ _ eq_refl E)|intros K; exact (k_line _ _ KN _ _ K E)|assumption| |congruence..].
    apply (line_off (ph_tfsf p)); [|exact (ev_box _ H)]. unfold step_tfsf_pulse, line in *. destruct (ph_tfsf p) eqn:Et; inv_ok; [|now rewrite Et].
    rewrite Hr. reflexivity.
  - intros p p' H E. assert (Hg := even_grid p H). constructor; [rewrite (k_H _ _ (KE (engine p)) _ _ eq_refl E); exact (ev_eng _ H)|exact (k_H _ _ KN _ _ (ev_mag _ H) E)|..].
    all: assert (Mg := proj2 (ev_mag _ H)); assert (En := ev_eng _ H); assert (Ch := ev_chg _ H).
    all: unfold step_H in E; apply bind_ok in E; destruct E as ([X Y] & E & K); injection K as <-.
    + exact (ev_src _ H). + exact (ev_box _ H).
    + unfold engine in En. injection En as _ _ _ _ Es. rewrite Es, Hg in E.
      assert (V := H_loop_cells _ _ _ _ _ _ _ _ E). unfold charge, Hx_at, Hy_at in *. cbn [set_H ph_F ph_grid set_ph_F fHx fHy] in *.
      destruct (V i j ltac:(lia) ltac:(lia)) as [X0 Y0]. destruct (V (i + 1) j ltac:(lia) ltac:(lia)) as [X1 _]. destruct (V i (j + 1) ltac:(lia) ltac:(lia)) as [_ Y1].
      rewrite X0, X1, Y0, Y1. destruct (Mg i j ltac:(lia) ltac:(lia)) as [-> ->]. destruct (Mg (i + 1) j ltac:(lia) ltac:(lia)) as [-> ->].
      destruct (Mg i (j + 1) ltac:(lia) ltac:(lia)) as [-> ->]. rewrite !Sx, !Sy by lia. rewrite Hg in *. rnumg. change (@T RNum) with R in *. unfold Rdiv in *. rewrite <- Ch. ring.
  - intros p p' H E. assert (Hg := even_grid p H). constructor; [rewrite (k_pmlH _ _ (KE (engine p)) _ _ eq_refl E); exact (ev_eng _ H)|exact (k_pmlH _ _ KN _ _ (ev_mag _ H) E)|..].
    all: assert (En := ev_eng _ H); assert (Ch := ev_chg _ H).
    all: unfold step_pmlH in E; apply bind_ok in E; destruct E as ([[b X] Y] & E & K); injection K as <-.
    + exact (ev_src _ H). + exact (ev_box _ H).
    + unfold engine in En. injection En as _ _ Ep _ _.
      destruct (pml_H_edge g _ _ _ _ _ _ _ _ Ep E) as (VX & VY & _). unfold charge, Hx_at, Hy_at in *. cbn [set_H ph_F ph_grid set_ph_F set_ph_pml fHx fHy] in *.
      rewrite !VX, !VY by lia. exact Ch.
  - intros p p' H E. assert (Hg := even_grid p H). destruct (step_tfsfH_frame _ _ E) as (_ & _ & At & As & _).
    constructor; [rewrite (k_tfsfH _ _ (KE (engine p)) _ _ eq_refl E); exact (ev_eng _ H)|exact (k_tfsfH _ _ KN _ _ (ev_mag _ H) E)|..].
    + rewrite As. exact (ev_src _ H). + rewrite At. exact (ev_box _ H).
    + assert (Ch := ev_chg _ H). assert (Ob := ev_box _ H). unfold step_tfsfH in E. destruct (ph_tfsf p) as [q|] eqn:Et; [|injection E as <-; exact Ch].
      apply bind_ok in E. destruct E as ([X Y] & E & K). injection K as <-. destruct (tfsf_updateH_cells _ _ _ _ _ E) as [VX VY].
      unfold charge, Hx_at, Hy_at in *. cbn [set_H ph_F ph_grid set_ph_F fHx fHy] in *. rewrite !VX, !VY.
      destruct Ob as (O1 & O2 & O3 & O4). unfold off_Hx, off_Hy in *.
      assert (TX : forall k l x, ~ (q_ia q <= k <= q_ib q /\ (l = q_ja q - 1 \/ l = q_jb q)) -> tfHx1 q k l x = x).
      { intros k l x Hn. unfold tfHx1, band. destruct (Z.leb_spec (q_ia q) k), (Z.leb_spec k (q_ib q)); cbn [andb]; try reflexivity.
        destruct (Z.eqb_spec l (q_ja q - 1)), (Z.eqb_spec l (q_jb q)); try reflexivity; exfalso; apply Hn; auto. }
      assert (TY : forall k l x, ~ (q_ja q <= l <= q_jb q /\ (k = q_ia q - 1 \/ k = q_ib q)) -> tfHy1 q k l x = x).
      { intros k l x Hn. unfold tfHy1, band. destruct (Z.leb_spec (q_ja q) l), (Z.leb_spec l (q_jb q)); cbn [andb]; try reflexivity.
        destruct (Z.eqb_spec k (q_ia q - 1)), (Z.eqb_spec k (q_ib q)); try reflexivity; exfalso; apply Hn; auto. }
      rewrite !TX, !TY by assumption. exact Ch.
  - intros o p p' H E. stays H; [exact (k_paint _ _ (KE _) _ _ _ eq_refl E)|intros K; exact (k_paint _ _ KN _ _ _ K E)|..]; unfold paint_phys in E; inv_ok; try reflexivity. exact (ev_box _ H).
  - intros o p p' H E. stays H; [exact (k_insert _ _ (KE _) _ _ _ eq_refl E)|intros K; exact (k_insert _ _ KN _ _ _ K E)|..]; unfold insert_material in E; destruct (m_kind (o_mat o)); inv_ok; try reflexivity; exact (ev_box _ H).
  - intros o p p' H E. stays H; [exact (k_reinsert _ _ (KE _) _ _ _ eq_refl E)|intros K; exact (k_reinsert _ _ KN _ _ _ K E)|..]; unfold reinsert_material in E; destruct (m_kind (o_mat o)); inv_ok; try reflexivity; exact (ev_box _ H).
  - intros p l H. stays H. intros K; exact K.
  - intros p H. destruct H. constructor; try assumption.
    + cbn. unfold off_square, off_Hx, off_Hy in *. destruct (ph_tfsf p); exact ev_box0.
    + unfold charge, Hx_at, Hy_at. cbn. unfold tzero. cbn. unfold Rdiv. ring.
  - intros p e H E. stays H. intros K; exact (k_clearC _ _ KN _ _ K E).
  - intros p v tp q H Hv E. assert (Hg := even_grid p H). destruct H. constructor; try assumption. cbn [ph_tfsf set_ph_tfsf]. rewrite Hg in E. exact (Hv q E).
Qed.
End Charge.

Lemma no_charge g name s0 l s i j : apart g -> mk_field g name = Ok s0 -> run_catch l s0 = Fine s -> inner_square g i j ->
  Forall (spares g i j) l -> charge (f_ph s) i j = 0%R.
Proof.
  intros Ha E0 E Hi Hl. assert (Hr : reachable g s0) by (exists name, s0, []; auto).
  destruct (reachable_engine g s0 Hr) as (c & sc & Ec & Es & En).
  assert (Cf := reachable_coefs g s0 Ha Hr). destruct Cf as (_ & _ & Sx & Sy). unfold med, med_of in Sx, Sy. cbn [sHx sHy sEx sEy] in Sx, Sy.
  assert (E5 : ph_sc (f_ph s0) = sc) by (unfold engine in En; congruence). rewrite E5 in Sx, Sy.
  refine (ev_chg g i j c sc _ (run_from_new (spares g i j) (even g i j c sc) (even_keeps g i j Hi c sc _ _) g name s0 l s _ E0 Hl E)).
  - intros k Hk. exact (proj2 (Sx k Hk)).
  - intros k Hk. exact (proj2 (Sy k Hk)).
  - intros p Hp. assert (Ep : p = f_ph s0).
    { unfold mk_field in E0. inv_ok. destruct (String.eqb name ""); [discriminate|]. inv_ok. cbn. congruence. }
    subst p. assert (Nm := reachable_nonmag g s0 Hr).
    assert (Hp' := Hp). unfold mk_phys in Hp'. inv_ok. constructor; try assumption.
    + rewrite <- Hp'. constructor.
    + rewrite <- Hp'. cbn. unfold off_square. cbn. auto.
    + rewrite <- Hp'. unfold charge, Hx_at, Hy_at. cbn.
      unfold tconst in *. repeat match goal with H : (if ?b then _ else _) = Ok _ |- _ => destruct b; inversion H; clear H; subst end.
      cbn. unfold Rdiv. ring.
Qed.

(** the charge a magnetic source has left behind stays where it is *)
Lemma charge_kept g s s' i j : apart g -> reachable g s -> (0 < g_dt g)%R -> update s = Fine s' -> inner_square g i j ->
  silent_at (ph_t (f_ph s) + g_dt g)%R (f_ph s) i j -> charge (f_ph s') i j = charge (f_ph s) i j.
Proof.
  intros Ha Hr Hd Hs Hi (U & O1 & O2 & O3 & O4). destruct (reachable_good g s (apart_roomy g Ha) Hr) as [Hw Gg].
  assert (Gs : ph_grid (f_ph s') = g) by (apply update_phys_step, phys_step_static, grid_static in Hs; congruence).
  rewrite Gg in U. destruct U as (U1 & U2 & U3 & U4). destruct Hi as (I1 & I2 & I3 & I4).
  destruct (magnetic_laws g s s' i j) as [A1 A2]; try assumption; try lia.
  destruct (magnetic_laws g s s' (i + 1) j) as [B1 _]; try assumption; try lia.
  destruct (magnetic_laws g s s' i (j + 1)) as [_ C2]; try assumption; try lia.
  specialize (A1 ltac:(lia) O1 U1). specialize (A2 ltac:(lia) O3 U3). specialize (B1 ltac:(lia) O2 U2). specialize (C2 ltac:(lia) O4 U4).
  unfold faraday, curl_e_x, curl_e_y, charge in *. rewrite Gs, Gg in *. revert A1 A2 B1 C2. generalize (Hx_at (f_ph s)) (Hy_at (f_ph s)) (Hx_at (f_ph s')) (Hy_at (f_ph s')).
  clear -Hd. intros x y x' y' A1 A2 B1 C2.
  assert (F : forall h h' q, (1 * (h' - h) / g_dt g = - q)%R -> h' = (h - g_dt g * q)%R) by (intros h h' q K; apply (Rmult_eq_compat_r (g_dt g)) in K; field_simplify in K; lra).
  apply F in A1, A2, B1, C2. rewrite A1, A2, B1, C2. unfold Rdiv. ring.
Qed.
