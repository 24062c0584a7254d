(** Rounding errors of whole programs with sources (C88). *)
From Coq Require Import ZArith Reals List String Bool Lia Psatz.
From Flocq Require Import Core.Core IEEE754.BinarySingleNaN.
From Verif Require Import Scalar Base BaseFacts VecM GridM GeometryM MaterialM PmlM DftM TfsfM PolarM InterpM H5M ClockM
  MonitorM FieldM OutFacts PhysFacts WfFacts ReachFacts SafeFacts SpecStep StepFacts YeeFacts TextbookFacts SpecSource SourceFacts SnapFacts FullStep
  Float FloatFacts SpecDouble DoubleFacts SpecDark DarkRun SpecRound RoundFacts RoundStep RoundRun SpecLoose LooseFacts SpecDriven DrivenFacts SpecWhole SpecSolid SolidFacts.
Import ListNotations.
Local Open Scope R_scope.

Ltac put := repeat match goal with H : tset _ _ _ _ = Ok _ |- _ => apply BaseFacts.tset_inv in H; destruct H as (-> & _ & _) end.

Section Program.
Variable L : libm.
Hypothesis HL : loose_libm L.
Variables (a : Z) (Lx Ly rs : f64) (pml : Z) (g : @grid (B64 L)).
Hypotheses (Ha : (0 <= a <= 300)%Z) (Hrs : resolution_within a rs) (Hpml : (1 <= pml)%Z)
  (Hg : @mk_grid (B64 L) Lx Ly rs pml = Ok g) (Hap : apart g).
Notation dt := (g_dt g : f64).

Lemma rs_handy : handy_resolution rs.
Proof.
  destruct Hrs as (F & R1 & R2). split; [exact F|].
  assert (bpow radix2 (-300) <= bpow radix2 (- a)) by (apply bpow_le; lia). assert (bpow radix2 a <= bpow radix2 300) by (apply bpow_le; lia). lra.
Qed.
Lemma grid_nums : btw (bpow radix2 (- a)) (bpow radix2 a) (g_dx g) /\ btw (bpow radix2 (-302)) (bpow radix2 a) dt.
Proof.
  destruct Hrs as (F & R1 & R2). destruct one_val as [O1 O2]. assert (B := big1). assert (P := bpow_gt_0 radix2 (- a)). assert (P' := bpow_gt_0 radix2 a).
  assert (E : g_dx g = f64_div (f64_ofZ 1) rs /\ g_dt g = f64_div (g_dx g) (f64_ofZ 2)).
  { assert (H := Hg). unfold mk_grid in H. apply bind_ok in H. destruct H as (x & _ & H). apply bind_ok in H. destruct H as (y & _ & H).
    injection H as H. rewrite <- H. split; reflexivity. }
  destruct E as [E1 E2]. rewrite E2.
  assert (D : btw (bpow radix2 (- a)) (bpow radix2 a) (g_dx g)).
  { rewrite E1. apply (div_rng _ _ 1 1 (bpow radix2 (- a)) (bpow radix2 a)); try (apply repr_b; lia); try lra; try (split; [assumption|lra]).
    - apply bpow_le. lia.
    - rewrite <- bpow_plus. replace (- a + a)%Z with 0%Z by lia. change (bpow radix2 0) with 1. lra.
    - rewrite <- bpow_plus. replace (a + - a)%Z with 0%Z by lia. change (bpow radix2 0) with 1. lra. }
  split; [exact D|]. destruct (f64_ofZ_correct 2) as [A1 A2]; [lia|].
  assert (Y := bpow_gt_0 radix2 (-302)).
  assert (W : bpow radix2 a <= bpow radix2 1000) by (apply bpow_le; lia).
  assert (V : bpow radix2 (-302) * 2 <= bpow radix2 (- a)) by (change 2 with (bpow radix2 1); rewrite <- bpow_plus; apply bpow_le; lia).
  apply (div_rng _ _ (bpow radix2 (- a)) (bpow radix2 a) 2 2); try (apply repr_b; lia); try lra; try exact D. split; [exact A2|lra].
Qed.

(** *** the coefficients of a solid *)
Lemma solid_coefs (m : @simple (B64 L)) : solid m -> moderate a (simple_Ca m (g_dt g)) /\ moderate a (simple_Cb m (g_dt g)).
Proof.
  intros Hm. destruct grid_nums as [_ (F & R1 & R2)]. assert (P0 := bpow_gt_0 radix2 (-302)).
  assert (Wa : bpow radix2 a <= bpow radix2 300) by (apply bpow_le; lia). assert (W1 : 1 <= bpow radix2 a) by (change 1 with (bpow radix2 0); apply bpow_le; lia).
  assert (Ht : time_step dt) by (split; [exact F|lra]). destruct (solid_damped L dt m Ht Hm) as (A & B & C & D).
  split; (split; [assumption|]); apply Rabs_le; lra.
Qed.
Lemma vacuum_solid : @solid L (Simple 1%num 1%num 0%num).
Proof.
  destruct one_val as [O1 O2]. assert (W : 1 <= bpow radix2 300) by (change 1 with (bpow radix2 0); apply bpow_le; lia).
  split; split; [exact O1|change (1 <= B2R (f64_ofZ 1) <= bpow radix2 300); rewrite O2; lra|reflexivity|change (0 <= 0 <= bpow radix2 300); lra].
Qed.

(** *** what the calls of a scene keep *)
Notation tame := (moderate a).
Definition tame_coefs (c : @coefs (B64 L)) : Prop := @fin_coefs (B64 L) tame c.
Definition solid_obj (o : @obj (B64 L)) : Prop := exists m, m_kind (o_mat o) = KSimple m /\ solid m.
Notation zeros := (fun _ _ => 0%num).
Record scene (p : @phys (B64 L)) : Prop := Scene {
  sn_grid : ph_grid p = g; sn_t : ph_t p = 0%num; sn_bg : ph_bg p = vacuum; sn_objs : Forall solid_obj (ph_objs p);
  sn_C : tame_coefs (ph_C p); sn_only : only_sources p; sn_dark : (e_of p, h_of p) = darkness }.

Lemma tame_mat o : solid_obj o -> tame (mat_Ca (m_kind (o_mat o)) (g_dt g)) /\ tame (mat_Cb (m_kind (o_mat o)) (g_dt g)) /\
  tame (mat_Da (m_kind (o_mat o)) (g_dt g)) /\ tame (mat_Db (m_kind (o_mat o)) (g_dt g)).
Proof.
  intros (m & -> & Hm). cbn [mat_Ca mat_Cb mat_Da mat_Db]. destruct (solid_coefs m Hm). split; [assumption|]. split; [assumption|].
  destruct one_val as [O1 O2]. destruct grid_nums as [_ (F & R1 & R2)]. assert (P0 := bpow_gt_0 radix2 (-302)).
  split; split; [exact O1|change (Rabs (B2R (f64_ofZ 1)) <= bpow radix2 a); rewrite O2, Rabs_pos_eq by lra; change 1 with (bpow radix2 0); apply bpow_le; lia|exact F|rewrite Rabs_pos_eq; lra].
Qed.
Lemma tame_paint o c c' : solid_obj o -> tame_coefs c -> paint g o c = Ok c' -> tame_coefs c'.
Proof.
  intros Ho. destruct (tame_mat o Ho) as (K1 & K2 & K3 & K4). intros Hc H. unfold paint in H. apply bind_ok in H. destruct H as (ib & _ & H). cbv zeta in H. revert H.
  apply for_up_pres; [exact Hc|]. intros i a1 a2 _ H1. apply for_up_pres; [exact H1|]. intros j a3 a4 _ (B1 & B2 & B3 & B4) H.
  destruct (obj_inside _ _); [|injection H as <-; exact (conj B1 (conj B2 (conj B3 B4)))]. inv_ok. put. refine (conj _ (conj _ (conj _ _))); cbn [cCa cCb cDa cDb]; apply fin2_upd; assumption.
Qed.
Lemma tame_clear c c' : tame_coefs c -> clear_coefs g vacuum c = Ok c' -> tame_coefs c'.
Proof.
  assert (Ho : solid_obj (Obj "" false (Block (0%num, 0%num)) (Material "" vacuum) (0%num, 0%num) 0%num)) by (exists (Simple 1%num 1%num 0%num); split; [reflexivity|exact vacuum_solid]).
  destruct (tame_mat _ Ho) as (K1 & K2 & K3 & K4). cbn [o_mat m_kind] in K1, K2, K3, K4. intros Hc H. unfold clear_coefs in H. cbv zeta in H. revert H.
  apply for_up_pres; [exact Hc|]. intros i a1 a2 _ H1. apply for_up_pres; [exact H1|]. intros j a3 a4 _ (B1 & B2 & B3 & B4) H.
  inv_ok. put. refine (conj _ (conj _ (conj _ _))); cbn [cCa cCb cDa cDb]; apply fin2_upd; assumption.
Qed.
Lemma scene_C c p : scene p -> tame_coefs c -> scene (set_ph_C c p).
Proof. intros [] H. constructor; assumption. Qed.
Lemma scene_paint o p p' : solid_obj o -> scene p -> paint_phys o p = Ok p' -> scene p'.
Proof.
  intros Ho Hs H. unfold paint_phys in H. apply bind_ok in H. destruct H as (c & Hc & H). injection H as <-. apply scene_C; [exact Hs|].
  rewrite (sn_grid _ Hs) in Hc. exact (tame_paint _ _ _ Ho (sn_C _ Hs) Hc).
Qed.
Lemma scene_fold l : Forall solid_obj l -> forall p p', scene p -> foldM repaint_one p l = Ok p' -> scene p'.
Proof.
  induction 1 as [|o l Ho Hl IH]; intros p p' Hs H; cbn [foldM] in H; [injection H as <-; exact Hs|]. apply bind_ok in H. destruct H as (q & H1 & H). unfold repaint_one in H1.
  apply bind_ok in H1. destruct H1 as (r & H0 & H1). apply (scene_paint _ _ _ Ho Hs) in H0. apply (IH q p'); [|exact H].
  destruct Ho as (m & Em & _). unfold reinsert_material in H1. rewrite Em in H1. injection H1 as <-. exact H0.
Qed.
Lemma scene_on_obj i h p : (forall o, o_mat (h o) = o_mat o) -> scene p -> scene (phys_on_obj i h p).
Proof.
  intros Hh Hs. unfold phys_on_obj. destruct (nth_error (ph_objs p) i) as [o|] eqn:E; [|exact Hs]. destruct (o_dyn o); [|exact Hs].
  destruct Hs. constructor; try assumption. cbn. clear - Hh E sn_objs0. revert i E. induction sn_objs0 as [|b l Hb Hl IH]; intros [|i] E; cbn in *; try discriminate; constructor; auto.
  injection E as ->. unfold solid_obj. rewrite Hh. exact Hb.
Qed.
Lemma scene_exec c p p' : scene_cmd c -> scene p -> phys_exec c p = Fine p' -> scene p'.
Proof.
  intros Hc Hs. destruct c; cbn [phys_exec scene_cmd] in *; intros H; try contradiction; repeat match goal with H : ok_out _ _ = Fine _ |- _ => apply ok_out_fine in H end;
    repeat match goal with H : Fine _ = Fine _ |- _ => injection H as <- end; try exact Hs; try (apply scene_on_obj; [reflexivity|exact Hs]).
  - unfold update_material_grid in H. apply bind_ok in H. destruct H as (c & Hc' & H). rewrite (sn_grid _ Hs), (sn_bg _ Hs) in Hc'.
    refine (scene_fold _ (sn_objs _ Hs) _ _ _ H). apply scene_C; [exact Hs|]. exact (tame_clear _ _ (sn_C _ Hs) Hc').
  - unfold phys_add_object in H. apply bind_ok in H. destruct H as (q & H1 & H). apply bind_ok in H. destruct H as (b & H2 & H). injection H as <-.
    apply (scene_paint _ _ _ Hc Hs) in H1. assert (Hc' := Hc). destruct Hc as (m & Em & _). unfold insert_material in H2. rewrite Em in H2. injection H2 as <-.
    destruct H1. constructor; try assumption. cbn. apply Forall_app. auto.
  - destruct Hs. constructor; assumption.
  - destruct Hs as [G1 T1 B1 O1 C1 (Y1 & Y2 & Y3 & Y4) D1]. unfold clear_fields_phys. constructor; cbn; try assumption; try reflexivity.
    + unfold only_sources. cbn. rewrite Y1, Y2, Y3, Y4. auto.
    + unfold e_of, h_of, darkness in *. cbn in *. injection D1 as _ Z1 Z2 Z3 Z4 _ Z5 Z6 _ Z7 Z8. rewrite Z1, Z2, Z3, Z4, Z5, Z6, Z7, Z8. reflexivity.
  - unfold phys_clear_materials in H. apply bind_ok in H. destruct H as (c & Hc' & H). injection H as <-. rewrite (sn_grid _ Hs), (sn_bg _ Hs) in Hc'.
    apply scene_C; [exact Hs|]. exact (tame_clear _ _ (sn_C _ Hs) Hc').
Qed.
Lemma scene_run l : Forall scene_cmd l -> forall p p', scene p -> phys_run l p = Fine p' -> scene p'.
Proof.
  induction 1 as [|c l Hc Hl IH]; intros p p' Hs H; cbn [phys_run] in H; [injection H as <-; exact Hs|]. apply obind_fine in H. destruct H as (q & H1 & H). exact (IH _ _ (scene_exec _ _ _ Hc Hs H1) H).
Qed.
Lemma scene_start name s0 : mk_field g name = Ok s0 -> scene (f_ph s0).
Proof.
  intros H. unfold mk_field in H. apply bind_ok in H. destruct H as (p & Ep & H).
  assert (E : f_ph s0 = p). { destruct (String.eqb name ""); [discriminate|]. apply bind_ok in H. destruct H as (? & _ & H). apply bind_ok in H. destruct H as (? & _ & H). injection H as <-. reflexivity. }
  rewrite E in *. clear H E. unfold mk_phys in Ep. apply bind_ok in Ep. destruct Ep as (z & Hz & Ep). apply bind_ok in Ep. destruct Ep as (c & Hc & Ep).
  apply bind_ok in Ep. destruct Ep as (b & Eb & Ep). apply bind_ok in Ep. destruct Ep as (sc & _ & Ep). injection Ep as <-.
  assert (Z : forall n m (a : @tensor (B64 L)), tconst n m 0%num = Ok a -> tval a = zeros). { unfold tconst. intros n m x K. destruct (_ && _); [|discriminate]. injection K as <-. reflexivity. }
  assert (Hz2 := Z _ _ _ Hz). constructor; cbn; auto.
  - apply (tame_clear _ c) in Hc; [exact Hc|]. assert (Q : tame (f64_ofZ 0)) by (split; [reflexivity|]; change (Rabs 0 <= bpow radix2 a); rewrite Rabs_R0; apply bpow_ge_0).
    refine (conj _ (conj _ (conj _ _))); intros i j; cbn; rewrite Hz2; exact Q.
  - unfold only_sources. cbn. auto.
  - unfold mk_pml in Eb. apply bind_ok in Eb. destruct Eb as (cf & _ & Eb). apply bind_ok in Eb. destruct Eb as (s & Es & Eb). injection Eb as <-.
    unfold mk_pml_psi in Es. apply bind_ok in Es. destruct Es as (zx & Hx & Es). apply bind_ok in Es. destruct Es as (zy & Hy & Es). injection Es as <-.
    apply Z in Hx, Hy. unfold e_of, h_of, darkness. cbn. rewrite Hz2, Hx, Hy. reflexivity.
Qed.

(** *** the medium *)
Lemma scene_medium s : scene (f_ph s) -> reachable g s -> moderate_med a (g_Nx g) (g_Ny g) (g_pml g) (g_dx g) (med (f_ph s)).
Proof.
  intros Hs Hr. destruct (usable64 L HL Lx Ly rs pml g rs_handy Hpml Hg Hap s Hr) as (U1 & U2 & U3 & U4). destruct grid_nums as [(F & R1 & R2) _].
  assert (P := bpow_gt_0 radix2 (- a)). assert (W1 : 1 <= bpow radix2 a) by (change 1 with (bpow radix2 0); apply bpow_le; lia).
  assert (Dv : forall x : f64, is_finite x = true /\ B2R x = B2R (g_dx g : f64) -> divisor a x) by (intros x [_ E]; unfold divisor; rewrite E, Rabs_pos_eq; lra).
  assert (Dm : forall b c, damping b c -> moderate a b /\ moderate a c) by (intros b c (A & B & C & D & _); split; (split; [assumption|apply Rabs_le; lra])).
  destruct (sn_C _ Hs) as (C1 & C2 & C3 & C4).
  split; [apply Dv; split; [exact F|reflexivity]|]. split; [intros i j _ _; split; [apply C1|]; split; [apply C2|]; split; [apply C3|apply C4]|].
  split; [intros i Hi; destruct (U3 i Hi); split; now apply Dv|]. split; [intros i Hi; destruct (U4 i Hi); split; now apply Dv|].
  split; intros d Hd; [destruct (U1 d Hd) as [X Y]|destruct (U2 d Hd) as [X Y]]; destruct (Dm _ _ X); destruct (Dm _ _ Y); auto.
Qed.

Lemma image_dark {M : Num} (f : @T (B64 L) -> @T M) : f 0%num = 0%num -> image f (@darkness (B64 L)) = darkness.
Proof. intros E. unfold image, image_e, image_h, darkness. cbn [fst snd eE eXl eXh eYl eYh hX hXl hXh hY hYl hYh]. rewrite E. reflexivity. Qed.

Section Whole.
Variables (name : string) (s0 : @field (B64 L)) (l : list (@cmd (B64 L))) (s s' : @field (B64 L)) (Ls : list (list (Z * Z))) (k : nat) (e0 e : Z).
Hypotheses (E0 : mk_field g name = Ok s0) (Hl : Forall scene_cmd l) (El : run l s0 = Fine s) (Ek : run (repeat Update k) s = Fine s').
Notation p := (f_ph s).
Notation q := (List.length (ph_srcs p)).
Notation dr := (drive (ph_srcs p) Ls (0%num : @T (B64 L)) (g_dt g)).
Hypothesis HLs : Forall2 (fun r c => src_cells g (sr_kind r) c) (ph_srcs p) Ls.
Hypothesis Hw : forall i, (i < k)%nat -> Forall (fun r : @source (B64 L) => moderate e0 (waveform (tp_shape (sr_tp r)) (moment (0%num : @T (B64 L)) (g_dt g) (S i)))) (ph_srcs p).

Let Hs : scene p := scene_run l Hl _ _ (scene_start name s0 E0) (run_phys l s0 s El).
Let Hr : reachable g s := ex_intro _ name (ex_intro _ s0 (ex_intro _ l (conj E0 (run_run_catch l s0 s El)))).

Lemma program_within : (0 <= e0 <= e)%Z -> (e + (6 * a + 21 + 2 * Z.of_nat q) <= 1000)%Z -> (Z.of_nat ((13 + q) * k) <= 2 ^ 53)%Z ->
  (forall i, (i < k)%nat -> every_cell (fun x : @T Magnitude => (x : R) <= bpow radix2 e)
     (driven_steps (g_Nx g) (g_Ny g) (g_pml g) (size L (g_dx g)) (image_med (size L) (med p)) (image_drive (size L) dr) i darkness)) ->
  within_cells ((1 + unit_error) ^ ((13 + q) * k) - 1) (e_of (f_ph s'), h_of (f_ph s'))
    (driven_steps (g_Nx g) (g_Ny g) (g_pml g) (value L (g_dx g)) (image_med (value L) (med p)) (image_drive (value L) dr) k darkness)
    (driven_steps (g_Nx g) (g_Ny g) (g_pml g) (size L (g_dx g)) (image_med (size L) (med p)) (image_drive (size L) dr) k darkness).
Proof.
  intros He HE Hk Hb. assert (Hm := scene_medium s Hs Hr). destruct (reachable_good g s (apart_roomy g Hap) Hr) as [Wp _].
  assert (D1 := image_dark (value L) eq_refl). assert (D2 : image (size L) (@darkness (B64 L)) = darkness) by (apply image_dark; unfold size; change (Rabs 0 = 0); apply Rabs_R0).
  assert (X := driven_within L a e0 e k s s' Ls). cbv zeta in X. rewrite (sn_dark _ Hs), D1, D2, (sn_grid _ Hs), (sn_t _ Hs) in X.
  apply X; try assumption; try lia; [exact (sn_only _ Hs)|]. split; intros; cbn; auto 10.
Qed.
Lemma program_short : (0 <= e0)%Z -> (e0 + Z.of_nat k * (6 * a + 21 + 2 * Z.of_nat q) <= 1000)%Z ->
  within_cells ((1 + unit_error) ^ ((13 + q) * k) - 1) (e_of (f_ph s'), h_of (f_ph s'))
    (driven_steps (g_Nx g) (g_Ny g) (g_pml g) (value L (g_dx g)) (image_med (value L) (med p)) (image_drive (value L) dr) k darkness)
    (driven_steps (g_Nx g) (g_Ny g) (g_pml g) (size L (g_dx g)) (image_med (size L) (med p)) (image_drive (size L) dr) k darkness).
Proof.
  intros He HE. assert (Hm := scene_medium s Hs Hr). destruct (reachable_good g s (apart_roomy g Hap) Hr) as [Wp _].
  assert (D1 := image_dark (value L) eq_refl). assert (D2 : image (size L) (@darkness (B64 L)) = darkness) by (apply image_dark; unfold size; change (Rabs 0 = 0); apply Rabs_R0).
  assert (X := driven_short L a e0 e0 k s s' Ls). cbv zeta in X. rewrite (sn_dark _ Hs), D1, D2, (sn_grid _ Hs), (sn_t _ Hs) in X.
  assert (Z0 : is_finite (f64_ofZ 0) = true /\ Rabs (B2R (f64_ofZ 0)) <= bpow radix2 e0) by (split; [reflexivity|]; change (Rabs 0 <= bpow radix2 e0); rewrite Rabs_R0; apply bpow_ge_0).
  apply X; try assumption; try lia; [exact (sn_only _ Hs)|]. split; intros; cbn [fst snd darkness eE eXl eXh eYl eYh hX hXl hXh hY hYl hYh]; exact (conj Z0 (conj Z0 (conj Z0 (conj Z0 Z0)))) || exact (conj Z0 (conj Z0 (conj Z0 (conj Z0 (conj Z0 Z0))))).
Qed.
End Whole.
End Program.
