(** Plane waves. *)
From Coq Require Import ZArith Reals String List Bool Lia Lra Psatz.
From Verif Require Import Scalar Base BaseFacts VecM GridM GeometryM MaterialM PmlM DftM TfsfM PolarM
  InterpM H5M ClockM MonitorM FieldM SpecGrid GridFacts OutFacts PhysFacts SpecPaint PaintFacts WfFacts ReachFacts InvFacts
  SpecStep StepFacts EngineFacts YeeFacts SpecSource SourceFacts PolarFacts FullStep TextbookFacts SpecWave DarkFacts
  SafeFacts SpecTfsf TfsfFacts TfsfRun SpecEnergy EnergyFacts EnergyRun LossRun ReverseFacts SpecPlane.
Import ListNotations.
Local Open Scope Z_scope.
#[local] Existing Instance RNum.

(** like [coasting], but the field may be anywhere *)
Record openly (g : grid) (eps : Z -> Z -> R) (p : phys) : Prop := Openly {
  op_grid : ph_grid p = g; op_wf : wf_phys p; op_gl : glassy g eps (med p); op_fl : flat g (med p);
  op_bare : ph_debye p = [] /\ ph_drude p = [] /\ ph_lorentz p = []; op_srcs : ph_srcs p = []; op_tfsf : ph_tfsf p = None }.
Definition clear_of (g : grid) (i j : Z) : Prop := g_pml g < i < g_Nx g - 1 - g_pml g /\ g_pml g < j < g_Ny g - 1 - g_pml g.

Lemma open_step g eps p p' : (0 < g_dx g)%R -> g_dt g = (g_dx g / 2)%R -> apart g -> openly g eps p -> phys_step p = Fine p' ->
  openly g eps p' /\ forall i j, clear_of g i j ->
    Ez_of p' i j = (Ez_of p i j + / (2 * eps i j) * curlH (Hx_of p) (Hy_of p) i j)%R /\
    Hx_of p' i j = (Hx_of p i j - / 2 * (Ez_of p' i (j + 1)%Z - Ez_of p' i j))%R /\
    Hy_of p' i j = (Hy_of p i j + / 2 * (Ez_of p' (i + 1)%Z j - Ez_of p' i j))%R.
Proof.
  intros Hd Ht Ha L Hs. destruct L as [co_grid0 co_wf0 co_gl0 co_fl0 co_bare0 co_srcs0 co_tfsf0].
  destruct (full_step p p') as (F0 & F1 & F2 & E3 & Ls & u & h & C); [now rewrite co_grid0|exact co_wf0|exact Hs|]. destruct C.
  rewrite co_grid0 in *. destruct co_bare0 as (D1 & D2 & D3). rewrite D1 in cw_debye. rewrite D2 in cw_drude. rewrite D3 in cw_lorentz.
  cbn [polar_all] in *. injection cw_debye as P1 K1. injection cw_drude as P2 K2. injection cw_lorentz as P3 K3.
  assert (EE : forall i j, tval E3 i j = eE u i j) by (intros; rewrite <- K3, <- K2, <- K1; apply cw_E0).
  rewrite co_srcs0 in *. cbn [combine] in *. rewrite co_tfsf0 in *. cbn [line] in cw_line. injection cw_line as Tl.
  unfold grid_next_e in cw_u. rewrite co_grid0 in cw_u.
  destruct cw_e as (Ve & Me1 & Me2 & Me3 & Me4). destruct cw_h as (Vx & Mh1 & Mh2 & Vy & Mh3 & Mh4). cbn [eE hX hY with_xy eXl eXh eYl eYh hXl hXh hYl hYh] in *.
  rewrite <- Tl in *. cbn [tf] in *.
  assert (AE : forall i j, Ez_of p' i j = eE u i j). { intros i j. unfold Ez_of. change (tval (fEz (ph_F p')) i j) with (eE (e_of p') i j). rewrite (Ve i j). unfold lits, lit. cbn [fold_left tf]. apply EE. }
  unfold grid_next_h in cw_hm. rewrite co_grid0 in cw_hm.
  assert (S' := cw_static). apply static_eq in S'. destruct S' as (G' & C' & _ & _ & _ & Co' & Sc').
  assert (Md : med p' = med p) by (unfold med; now rewrite C', Co', Sc').
  split. { constructor; rewrite ?Md; auto; try congruence. now destruct (ph_srcs p'). }
  intros i j [Hi Hj]. destruct Ha as (A0 & A1 & A2).
  destruct (co_gl0 i j ltac:(lia) ltac:(lia)) as (C1 & C2 & C3 & C4 & C5).
  destruct (proj1 co_fl0 i ltac:(lia)) as [S1 S2]. destruct (proj2 co_fl0 j ltac:(lia)) as [S3 S4].
  assert (Co : core (g_Nx g) (g_Ny g) i j = true) by (unfold core; lia).
  split; [|split].
  - rewrite AE, cw_u. unfold next_e. cbn [eE]. rewrite Co. unfold addX, addY, yeeE.
    replace (i <=? g_pml g) with false by lia. replace (g_Nx g - 1 - g_pml g <=? i) with false by lia.
    replace (j <=? g_pml g) with false by lia. replace (g_Ny g - 1 - g_pml g <=? j) with false by lia.
    rewrite C1, C2, S1, S3, Ht. unfold curlH. cbn [e_of h_of eE hX hY]. unfold Ez_of, Hx_of, Hy_of. rnum. change (@T RNum) with R in *. field. split; lra.
  - change (Hx_of p' i j) with (hX (h_of p') i j). rewrite Vx, cw_hm. unfold next_h, with_xy. cbn [tf hX]. cbv beta. rewrite Co. unfold addHx, yeeHx.
    replace (j <? g_pml g) with false by lia. replace (g_Ny g - 1 - g_pml g <=? j) with false by lia. cbn [andb].
    rewrite C3, C4, S4, Ht. unfold lits, lit. cbn [fold_left e_of h_of eE hX hY]. unfold Ez_of, Hx_of. rnum. change (@T RNum) with R in *. field. lra.
  - change (Hy_of p' i j) with (hY (h_of p') i j). rewrite Vy, cw_hm. unfold next_h, with_xy. cbn [tf hY]. cbv beta. rewrite Co. unfold addHy, yeeHy.
    replace (i <? g_pml g) with false by lia. replace (g_Nx g - 1 - g_pml g <=? i) with false by lia. cbn [andb].
    rewrite C3, C4, S2, Ht. unfold lits, lit. cbn [fold_left e_of h_of eE hX hY]. unfold Ez_of, Hy_of. rnum. change (@T RNum) with R in *. field. lra.
Qed.

Lemma cos_gap a b : (cos (a - b) - cos (a + b) = 2 * sin a * sin b)%R.
Proof. rewrite cos_minus, cos_plus. ring. Qed.

(** the wave satisfies both halves of the step *)
Lemma wave_step_E w eps n i j : (0 < eps)%R -> sin (w_om w / 2) <> 0%R -> dispersion eps w ->
  wave_E w (S n) i j = (wave_E w n i j + / (2 * eps) * curlH (wave_Hx w n) (wave_Hy w n) i j)%R.
Proof.
  intros He Hs D. unfold wave_E, curlH, wave_Hx, wave_Hy. unfold dispersion in D. set (so := sin (w_om w / 2)) in *. set (sx := sin (w_kx w / 2)) in *. set (sy := sin (w_ky w / 2)) in *.
  rewrite S_INR. set (A := phase w (IZR i) (IZR j) (INR n + / 2)). rewrite !minus_IZR.
  replace (phase w (IZR i) (IZR j) (INR n + 1)) with (A - w_om w / 2)%R by (unfold A, phase; field).
  replace (phase w (IZR i) (IZR j) (INR n)) with (A + w_om w / 2)%R by (unfold A, phase; field).
  replace (phase w (IZR i + / 2) (IZR j) (INR n + / 2)) with (A + w_kx w / 2)%R by (unfold A, phase; field).
  replace (phase w (IZR i - 1 + / 2) (IZR j) (INR n + / 2)) with (A - w_kx w / 2)%R by (unfold A, phase; field).
  replace (phase w (IZR i) (IZR j - 1 + / 2) (INR n + / 2)) with (A - w_ky w / 2)%R by (unfold A, phase; field).
  replace (phase w (IZR i) (IZR j + / 2) (INR n + / 2)) with (A + w_ky w / 2)%R by (unfold A, phase; field).
  assert (G1 := cos_gap A (w_om w / 2)). assert (G2 := cos_gap A (w_kx w / 2)). assert (G3 := cos_gap A (w_ky w / 2)). fold so in G1. fold sx in G2. fold sy in G3.
  apply Rminus_diag_uniq. set (sa := sin A) in *.
  match goal with |- (?L - (?M + ?K) = 0)%R => assert (X : (L - M = w_a w * (2 * sa * so))%R) by (rewrite <- G1; ring);
    assert (Y : (K = w_a w * sa / (2 * eps) * ((sx ^ 2 + sy ^ 2) / so))%R) end.
  { transitivity (/ (2 * eps) * (w_a w * (sx / (2 * so)) * (2 * sa * sx) + w_a w * (sy / (2 * so)) * (2 * sa * sy)))%R; [rewrite <- G2, <- G3; ring|]. field. split; [exact Hs|lra]. }
  match goal with |- (?L - (?M + ?K) = 0)%R => replace (L - (M + K))%R with ((L - M) - K)%R by ring; rewrite X, Y end.
  replace (sx ^ 2 + sy ^ 2)%R with (4 * (eps * so ^ 2))%R by (rewrite D; field). field. split; [exact Hs|lra].
Qed.
Lemma wave_step_Hx w n i j : sin (w_om w / 2) <> 0%R ->
  wave_Hx w (S n) i j = (wave_Hx w n i j - / 2 * (wave_E w (S n) i (j + 1) - wave_E w (S n) i j))%R.
Proof.
  intros Hs. unfold wave_E, wave_Hx. set (so := sin (w_om w / 2)) in *. set (sy := sin (w_ky w / 2)) in *.
  set (A := phase w (IZR i) (IZR j + / 2) (INR (S n))). rewrite plus_IZR. assert (Sn := S_INR n).
  replace (phase w (IZR i) (IZR j + / 2) (INR (S n) + / 2)) with (A - w_om w / 2)%R by (unfold A, phase; field).
  replace (phase w (IZR i) (IZR j + / 2) (INR n + / 2)) with (A + w_om w / 2)%R by (unfold A, phase; rewrite Sn; field).
  replace (phase w (IZR i) (IZR j + 1) (INR (S n))) with (A + w_ky w / 2)%R by (unfold A, phase; field).
  replace (phase w (IZR i) (IZR j) (INR (S n))) with (A - w_ky w / 2)%R by (unfold A, phase; field).
  assert (G1 := cos_gap A (w_om w / 2)). assert (G3 := cos_gap A (w_ky w / 2)). fold so in G1. fold sy in G3.
  transitivity (w_a w * (sy / (2 * so)) * (cos (A + w_om w / 2) + (cos (A - w_om w / 2) - cos (A + w_om w / 2))))%R; [ring|]. rewrite G1.
  transitivity (w_a w * (sy / (2 * so)) * cos (A + w_om w / 2) + / 2 * w_a w * (cos (A - w_ky w / 2) - cos (A + w_ky w / 2)))%R; [rewrite G3; field; exact Hs|ring].
Qed.
Lemma wave_step_Hy w n i j : sin (w_om w / 2) <> 0%R ->
  wave_Hy w (S n) i j = (wave_Hy w n i j + / 2 * (wave_E w (S n) (i + 1) j - wave_E w (S n) i j))%R.
Proof.
  intros Hs. unfold wave_E, wave_Hy. set (so := sin (w_om w / 2)) in *. set (sx := sin (w_kx w / 2)) in *.
  set (A := phase w (IZR i + / 2) (IZR j) (INR (S n))). rewrite plus_IZR. assert (Sn := S_INR n).
  replace (phase w (IZR i + / 2) (IZR j) (INR (S n) + / 2)) with (A - w_om w / 2)%R by (unfold A, phase; field).
  replace (phase w (IZR i + / 2) (IZR j) (INR n + / 2)) with (A + w_om w / 2)%R by (unfold A, phase; rewrite Sn; field).
  replace (phase w (IZR i + 1) (IZR j) (INR (S n))) with (A + w_kx w / 2)%R by (unfold A, phase; field).
  replace (phase w (IZR i) (IZR j) (INR (S n))) with (A - w_kx w / 2)%R by (unfold A, phase; field).
  assert (G1 := cos_gap A (w_om w / 2)). assert (G3 := cos_gap A (w_kx w / 2)). fold so in G1. fold sx in G3.
  transitivity (- w_a w * (sx / (2 * so)) * (cos (A + w_om w / 2) + (cos (A - w_om w / 2) - cos (A + w_om w / 2))))%R; [ring|]. rewrite G1.
  transitivity (- w_a w * (sx / (2 * so)) * cos (A + w_om w / 2) - / 2 * w_a w * (cos (A - w_kx w / 2) - cos (A + w_kx w / 2)))%R; [rewrite G3; field; exact Hs|ring].
Qed.

Definition carries (P : patch) (w : wave) (n : nat) (p : phys) : Prop := forall i j,
  (within P n i j -> Ez_of p i j = wave_E w n i j) /\
  (within P n i j -> i + 1 < x1 P - Z.of_nat n -> j + 1 < y1 P - Z.of_nat n -> Hx_of p i j = wave_Hx w n i j /\ Hy_of p i j = wave_Hy w n i j).

Section Program.
Variables (Lx Ly rs : R) (pml : Z) (g : grid) (s : field) (os : list obj) (eps : Z -> Z -> R) (e : R) (w : wave) (P : patch) (ez hx hy : Z -> Z -> R).
Hypotheses (HLx : (0 < Lx)%R) (HLy : (0 < Ly)%R) (Hrs : (0 < rs)%R) (Hpml : 0 <= pml) (Eg : mk_grid Lx Ly rs pml = Ok g) (Ha : apart g).
Hypotheses (Hr : reachable g s) (Sr : ph_srcs (f_ph s) = []) (Tf : ph_tfsf (f_ph s) = None).
Hypotheses (Ba : ph_debye (f_ph s) = [] /\ ph_drude (f_ph s) = [] /\ ph_lorentz (f_ph s) = []).
Hypotheses (Hc : Forall (fun o => clear_material (m_kind (o_mat o))) os) (Hs : grid_shows g os vacuum (ph_C (f_ph s))) (He : permittivity g os eps).
Hypotheses (HP : clear_patch g P) (Hw : sin (w_om w / 2) <> 0%R) (Dw : dispersion e w).
Hypotheses (Hin : forall i j, within P 0 i j -> eps i j = e /\ ez i j = wave_E w 0 i j /\ hx i j = wave_Hx w 0 i j /\ hy i j = wave_Hy w 0 i j).
Let a := poke ez hx hy s.

Lemma wave_run n x : run (repeat Update n) a = Fine x -> openly g eps (f_ph x) /\ carries P w n (f_ph x).
Proof.
  destruct (film_grid Lx Ly rs pml g HLx HLy Hrs Hpml Eg) as (Hd & Ht & Hp). destruct HP as (P1 & P2 & P3 & P4).
  revert x. induction n as [|n IH]; intros x R.
  - cbn in R. injection R as <-. assert (K := poked_coasting g s ez hx hy os eps Ha Hr Sr Tf Ba Hc Hs He). fold a in K.
    split; [destruct K; constructor; assumption|]. intros i j. unfold Ez_of, Hx_of, Hy_of. cbn. split; intros H; destruct (Hin i j H) as (_ & A & B & C); auto.
  - apply run_update_last in R. destruct R as (b & Rb & Eb). destruct (IH b Rb) as [Ob Cb]. apply exec_phys in Eb. cbn [phys_exec] in Eb.
    destruct (open_step g _ (f_ph b) (f_ph x) Hd Ht Ha Ob Eb) as [Ox V]. split; [exact Ox|].
    assert (VE : forall i j, within P (S n) i j -> Ez_of (f_ph x) i j = wave_E w (S n) i j).
    { intros i j [Hi Hj]. destruct (V i j ltac:(split; lia)) as (-> & _). destruct (Hin i j ltac:(split; lia)) as (Ee & _). rewrite Ee.
      assert (H1 : (1 <= e)%R). { destruct (op_gl _ _ _ Ob i j ltac:(lia) ltac:(lia)) as (_ & _ & _ & _ & K). now rewrite Ee in K. }
      rewrite (wave_step_E w e n i j ltac:(lra) Hw Dw).
      rewrite (proj1 (Cb i j)) by (split; lia). unfold curlH. destruct (proj2 (Cb i j) ltac:(split; lia) ltac:(lia) ltac:(lia)) as [-> ->].
      rewrite (proj2 (proj2 (Cb (i - 1) j) ltac:(split; lia) ltac:(lia) ltac:(lia))), (proj1 (proj2 (Cb i (j - 1)) ltac:(split; lia) ltac:(lia) ltac:(lia))). reflexivity. }
    intros i j. split; [apply VE|]. intros [Hi Hj] Hi' Hj'. destruct (V i j ltac:(split; lia)) as (_ & -> & ->).
    destruct (proj2 (Cb i j) ltac:(split; lia) ltac:(lia) ltac:(lia)) as [-> ->]. rewrite (wave_step_Hx w n i j Hw), (wave_step_Hy w n i j Hw), !VE by (split; lia). split; reflexivity.
Qed.

Lemma waves_travel n x i j : run (repeat Update n) a = Fine x -> within P n i j ->
  Ez_of (f_ph x) i j = wave_E w n i j /\
  (i + 1 < x1 P - Z.of_nat n -> j + 1 < y1 P - Z.of_nat n -> Hx_of (f_ph x) i j = wave_Hx w n i j /\ Hy_of (f_ph x) i j = wave_Hy w n i j).
Proof. intros R H. destruct (wave_run n x R) as [_ C]. destruct (C i j) as [A B]. split; auto. Qed.
End Program.

(** every wave number has a frequency *)
Lemma frequency_exists eps a phi kx ky : (1 <= eps)%R -> exists om, (0 <= om <= PI / 2)%R /\ dispersion eps (Wave a phi kx ky om).
Proof.
  intros He. unfold dispersion. cbn [w_om w_kx w_ky]. set (q := (/ 4 * (sin (kx / 2) ^ 2 + sin (ky / 2) ^ 2))%R).
  assert (B : forall x, (0 <= sin x ^ 2 <= 1)%R). { intros x. assert (P := sin2_cos2 x). unfold Rsqr in P. assert (0 <= sin x * sin x)%R by apply Rle_0_sqr. assert (0 <= cos x * cos x)%R by apply Rle_0_sqr. lra. }
  assert (Q : (0 <= q <= / 2)%R). { assert (B1 := B (kx / 2)%R). assert (B2 := B (ky / 2)%R). unfold q. lra. }
  assert (Qe : (0 <= q / eps <= / 2)%R).
  { split; [apply Rmult_le_pos; [lra|apply Rlt_le, Rinv_0_lt_compat; lra]|]. apply Rmult_le_reg_r with eps; [lra|]. unfold Rdiv. rewrite Rmult_assoc, Rinv_l, Rmult_1_r by lra. nra. }
  set (r := sqrt (q / eps)). assert (R0 : (0 <= r)%R) by apply sqrt_pos. assert (R2 : (r * r = q / eps)%R) by (apply sqrt_sqrt; lra).
  assert (R1 : (r <= / sqrt 2)%R).
  { assert (0 < sqrt 2)%R by (apply sqrt_lt_R0; lra). assert (K : (sqrt 2 * sqrt 2 = 2)%R) by (apply sqrt_sqrt; lra).
    apply Rsqr_incr_0_var; [|apply Rlt_le, Rinv_0_lt_compat; lra]. unfold Rsqr. rewrite R2, <- Rinv_mult, K. lra. }
  assert (P0 := PI_RGT_0).
  assert (S4 : sin (PI / 4) = (/ sqrt 2)%R) by (rewrite sin_PI4; unfold Rdiv; ring).
  assert (R3 : (-1 <= r <= 1)%R) by (split; [lra|]; assert (r * r <= 1 * 1)%R by lra; nra).
  exists (2 * asin r)%R. replace (2 * asin r / 2)%R with (asin r) by field. rewrite sin_asin by exact R3.
  split; [|replace (r ^ 2)%R with (r * r)%R by ring; rewrite R2; field; lra].
  assert (AB := asin_bound r).
  assert (A0 : (0 <= asin r)%R). { destruct (Rle_lt_dec 0 (asin r)) as [K|K]; [exact K|]. exfalso. assert (H := sin_lt_0_var (asin r) ltac:(lra) K). rewrite sin_asin in H by exact R3. lra. }
  assert (A1 : (asin r <= PI / 4)%R).
  { destruct (Rle_lt_dec (asin r) (PI / 4)) as [K|K]; [exact K|]. exfalso. assert (H := sin_increasing_1 (PI / 4) (asin r) ltac:(lra) ltac:(lra) ltac:(lra) ltac:(lra) K). rewrite sin_asin, S4 in H by exact R3. lra. }
  lra.
Qed.
