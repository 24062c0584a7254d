(** The grid in IEEE double arithmetic: proofs of C87. *)
From Coq Require Import ZArith Reals Bool Lia Psatz.
From Flocq Require Import Core.Core IEEE754.BinarySingleNaN Relative.
From Flocq Require Import Plus_error.
From Verif Require Import Scalar Base BaseFacts VecM GridM Float FloatFacts SpecGrid GridFacts SpecDouble.
Local Open Scope R_scope.

Notation F64 := (FLT_exp (-1074) 53).
Notation u53 := (bpow radix2 (-53)).

Lemma u53_small : 0 < u53 < / 2 ^ 50.
Proof.
  split; [apply bpow_gt_0|]. replace (/ 2 ^ 50) with (bpow radix2 (-50)) by (simpl; lra). apply bpow_lt. lia.
Qed.

Lemma toZ_some m (x : f64) z : f64_toZ m x = Some z ->
  is_finite x = true /\ z = round_mode m (B2R x) /\ is_int32 z.
Proof.
  unfold f64_toZ. destruct (is_finite x) eqn:F; [|discriminate]. intros H. apply cast_i32_some in H. destruct H as [-> H].
  rewrite Btrunc_nearbyint in * by exact F. split; [reflexivity|]. split; [reflexivity|].
  unfold is_int32. unfold INT_MIN, INT_MAX in H. lia.
Qed.
Lemma toZ_ok m (x : f64) : is_finite x = true -> is_int32 (round_mode m (B2R x)) ->
  f64_toZ m x = Some (round_mode m (B2R x)).
Proof.
  intros F H. unfold f64_toZ. rewrite F, Btrunc_nearbyint by exact F. apply cast_i32_ok, is_int32_range, H.
Qed.

Lemma div_ok (x d : f64) : is_finite x = true -> B2R d <> 0 -> Rabs (B2R x / B2R d) <= bpow radix2 1000 ->
  B2R (f64_div x d) = rnd64 (B2R x / B2R d) /\ is_finite (f64_div x d) = true.
Proof.
  intros Fx Hd H. unfold f64_div. generalize (@Bdiv_correct 53 1024 Hprec64 Hemax64 mode_NE x d Hd).
  change (round_mode mode_NE) with ZnearestE. rewrite fexp64_FLT. rewrite Rlt_bool_true.
  - intros [H1 [H2 _]]. rewrite H2. auto.
  - apply Rle_lt_trans with (bpow radix2 1000); [|apply bpow_lt; lia].
    apply abs_round_le_generic; [typeclasses eauto|typeclasses eauto| |exact H].
    apply generic_format_bpow. unfold FLT_exp. lia.
Qed.
Lemma div_inv (x d : f64) : B2R d <> 0 -> is_finite (f64_div x d) = true ->
  is_finite x = true /\ B2R (f64_div x d) = rnd64 (B2R x / B2R d).
Proof.
  intros Hd. unfold f64_div. generalize (@Bdiv_correct 53 1024 Hprec64 Hemax64 mode_NE x d Hd).
  change (round_mode mode_NE) with ZnearestE. rewrite fexp64_FLT. destruct Rlt_bool.
  - intros [H1 [H2 _]] F. rewrite H2 in F. auto.
  - intros H F. rewrite <- is_finite_SF_B2SF, H in F. discriminate.
Qed.
Lemma mul_inv (x y : f64) : is_finite (f64_mul x y) = true ->
  is_finite x = true /\ is_finite y = true /\ B2R (f64_mul x y) = rnd64 (B2R x * B2R y).
Proof.
  unfold f64_mul. generalize (@Bmult_correct 53 1024 Hprec64 Hemax64 mode_NE x y).
  change (round_mode mode_NE) with ZnearestE. rewrite fexp64_FLT. destruct Rlt_bool.
  - intros [H1 [H2 _]] F. rewrite H2 in F. apply andb_prop in F. tauto.
  - intros H F. rewrite <- is_finite_SF_B2SF, H in F. discriminate.
Qed.
Lemma mul_ok (x y : f64) : is_finite x = true -> is_finite y = true -> Rabs (B2R x * B2R y) <= bpow radix2 1023 ->
  B2R (f64_mul x y) = rnd64 (B2R x * B2R y) /\ is_finite (f64_mul x y) = true.
Proof.
  intros Fx Fy H. unfold f64_mul. generalize (@Bmult_correct 53 1024 Hprec64 Hemax64 mode_NE x y).
  change (round_mode mode_NE) with ZnearestE. rewrite fexp64_FLT. rewrite Rlt_bool_true.
  - intros [H1 [H2 _]]. rewrite H2, Fx, Fy. auto.
  - apply Rle_lt_trans with (bpow radix2 1023); [|apply bpow_lt; lia].
    apply abs_round_le_generic; [typeclasses eauto|typeclasses eauto| |exact H].
    apply generic_format_bpow. unfold FLT_exp. lia.
Qed.

(** one coordinate of to_grid *)
Lemma toward (x d : f64) z : B2R d <> 0 -> f64_toZ mode_NA (f64_div x d) = Some z ->
  is_finite x = true /\ z = ZnearestA (rnd64 (B2R x / B2R d)) /\ is_int32 z.
Proof.
  intros Hd H. apply toZ_some in H. destruct H as (F & E & Hz). destruct (div_inv _ _ Hd F) as [Fx Ex].
  rewrite Ex in E. auto.
Qed.
Lemma to_grid_inv (L : libm) (g : @grid (B64 L)) (p : f64 * f64) i j : B2R (g_dx g : f64) <> 0 ->
  @to_grid (B64 L) g p = Ok (i, j) ->
  (is_finite (fst p) = true /\ i = ZnearestA (rnd64 (B2R (fst p) / B2R (g_dx g : f64))) /\ is_int32 i) /\
  (is_finite (snd p) = true /\ j = ZnearestA (rnd64 (B2R (snd p) / B2R (g_dx g : f64))) /\ is_int32 j).
Proof.
  intros Hd H. unfold to_grid in H. inv_ok. apply ofOption_ok in Hr, Hr0.
  change (@nround (B64 L)) with (f64_toZ mode_NA) in *. change (@ndiv (B64 L)) with f64_div in *.
  split; apply toward; assumption.
Qed.
Lemma ZnearestA_mono x y : x <= y -> (ZnearestA x <= ZnearestA y)%Z.
Proof. intros H. apply Zrnd_le; [typeclasses eauto|exact H]. Qed.
Lemma int32_pow z : is_int32 z -> Rabs (IZR z) <= bpow radix2 31.
Proof. intros H. rewrite <- abs_IZR. change (bpow radix2 31) with (IZR (2 ^ 31)). apply IZR_le. unfold is_int32 in H. lia. Qed.

Lemma mono64 (L : libm) (g : @grid (B64 L)) (p q : f64 * f64) i j k l : 0 < B2R (g_dx g : f64) ->
  @to_grid (B64 L) g p = Ok (i, j) -> @to_grid (B64 L) g q = Ok (k, l) ->
  (B2R (fst p) <= B2R (fst q) -> (i <= k)%Z) /\ (B2R (snd p) <= B2R (snd q) -> (j <= l)%Z).
Proof.
  intros Hd H1 H2. apply to_grid_inv in H1, H2; try lra.
  destruct H1 as ((_ & -> & _) & (_ & -> & _)), H2 as ((_ & -> & _) & (_ & -> & _)).
  assert (Hi : 0 < / B2R (g_dx g : f64)) by (apply Rinv_0_lt_compat, Hd).
  split; intros H; apply ZnearestA_mono, round_le; try typeclasses eauto; unfold Rdiv; apply Rmult_le_compat_r; lra.
Qed.

(** a quotient and its rounding *)
Lemma rnd_near q : Rabs (q - IZR (ZnearestA (rnd64 q))) <= / 2 + u53 * Rabs q.
Proof.
  destruct (Rle_or_lt (bpow radix2 (-1022)) (Rabs q)) as [H|H].
  - replace (q - IZR (ZnearestA (rnd64 q))) with (- (rnd64 q - q) + (rnd64 q - IZR (ZnearestA (rnd64 q)))) by ring.
    apply Rle_trans with (1 := Rabs_triang _ _). rewrite Rabs_Ropp, Rplus_comm. apply Rplus_le_compat.
    + rewrite Rabs_minus_sym. replace (/ 2) with (/ 2) by reflexivity. rewrite Rabs_minus_sym. apply Znearest_half.
    + apply rnd64_rel, H.
  - assert (Hs : bpow radix2 (-1022) < / 2).
    { change (/ 2) with (bpow radix2 (-1)). apply bpow_lt. lia. }
    assert (E : ZnearestA (rnd64 q) = 0%Z).
    { apply Znearest_imp. rewrite Rminus_0_r. apply Rle_lt_trans with (bpow radix2 (-1022)); [|exact Hs].
      apply abs_round_le_generic; try typeclasses eauto; [|lra].
      apply generic_format_bpow. unfold FLT_exp. lia. }
    rewrite E, Rminus_0_r. generalize (Rabs_pos q) u53_small. intros. nra.
Qed.
Lemma near64 (L : libm) (g : @grid (B64 L)) (p : f64 * f64) i j : 0 < B2R (g_dx g : f64) ->
  @to_grid (B64 L) g p = Ok (i, j) ->
  almost_nearest (B2R (fst p) / B2R (g_dx g : f64)) i /\ almost_nearest (B2R (snd p) / B2R (g_dx g : f64)) j.
Proof.
  intros Hd H. apply to_grid_inv in H; [|lra]. destruct H as ((_ & -> & _) & (_ & -> & _)).
  split; apply rnd_near.
Qed.

(** conversions that succeed *)
Lemma toward_ok (x d : f64) : is_finite x = true -> 0 < B2R d -> Rabs (B2R x / B2R d) <= IZR (2 ^ 31 - 1) ->
  f64_toZ mode_NA (f64_div x d) = Some (ZnearestA (rnd64 (B2R x / B2R d))).
Proof.
  intros Fx Hd H. destruct (div_ok x d Fx) as [E F]; [lra| |].
  { apply Rle_trans with (1 := H). apply Rle_trans with (bpow radix2 31).
    - change (bpow radix2 31) with (IZR (2 ^ 31)). apply IZR_le. lia.
    - apply bpow_le. lia. }
  rewrite <- E. change ZnearestA with (round_mode mode_NA). apply toZ_ok; [exact F|]. rewrite E. simpl round_mode.
  assert (A : Rabs (rnd64 (B2R x / B2R d)) <= IZR (2 ^ 31 - 1)).
  { apply abs_round_le_generic; try typeclasses eauto; [|exact H]. apply gen_ofZ. lia. }
  apply Rabs_le_inv in A. rewrite <- opp_IZR in A. destruct A as [A1 A2].
  apply ZnearestA_mono in A1, A2. rewrite !(Zrnd_IZR ZnearestA) in *. unfold is_int32. lia.
Qed.
Lemma total64 (L : libm) (g : @grid (B64 L)) (p : f64 * f64) : 0 < B2R (g_dx g : f64) ->
  is_finite (fst p) = true -> is_finite (snd p) = true ->
  Rabs (B2R (fst p) / B2R (g_dx g : f64)) <= IZR (2 ^ 31 - 1) ->
  Rabs (B2R (snd p) / B2R (g_dx g : f64)) <= IZR (2 ^ 31 - 1) ->
  exists q, @to_grid (B64 L) g p = Ok q.
Proof.
  intros Hd F1 F2 H1 H2. unfold to_grid. change (@nround (B64 L)) with (f64_toZ mode_NA). change (@ndiv (B64 L)) with f64_div.
  rewrite !toward_ok by assumption. cbn. eauto.
Qed.

(** ** construction *)
Section Build.
Variable L : libm.

Lemma build64 (Lx Ly rs : f64) pml (g : @grid (B64 L)) : resolution64 rs -> @mk_grid (B64 L) Lx Ly rs pml = Ok g ->
  (is_finite Lx = true /\ is_finite Ly = true) /\
  (g_Nx g = Zceil (rnd64 (B2R Lx * B2R rs)) /\ is_int32 (g_Nx g)) /\
  (g_Ny g = Zceil (rnd64 (B2R Ly * B2R rs)) /\ is_int32 (g_Ny g)) /\
  (is_finite (g_dx g : f64) = true /\ B2R (g_dx g : f64) = rnd64 (/ B2R rs)) /\
  g_Lx g = f64_mul (g_dx g) (f64_ofZ (g_Nx g - 1)) /\ g_Ly g = f64_mul (g_dx g) (f64_ofZ (g_Ny g - 1)) /\ g_pml g = (pml + 1)%Z.
Proof.
  intros (Fr & R1 & R2) H. unfold mk_grid in H. inv_ok. apply ofOption_ok in Hr, Hr0.
  change (@nceil (B64 L)) with (f64_toZ mode_UP) in *. change (@nmul (B64 L)) with f64_mul in *.
  apply toZ_some in Hr, Hr0. destruct Hr as (F1 & E1 & I1), Hr0 as (F2 & E2 & I2).
  apply mul_inv in F1, F2. destruct F1 as (F1 & _ & M1), F2 as (F2 & _ & M2). rewrite M1 in E1. rewrite M2 in E2.
  cbn [g_Nx g_Ny g_dx g_Lx g_Ly g_pml].
  assert (P : 0 < B2R rs) by (apply Rlt_le_trans with (2 := R1), bpow_gt_0).
  change (@ndiv (B64 L)) with f64_div. change (@nofZ (B64 L)) with f64_ofZ.
  destruct (f64_ofZ_correct 1) as [O1 O2]; [lia|].
  destruct (div_ok (f64_ofZ 1) rs O2) as [D1 D2]; [lra| |].
  { rewrite O1. unfold Rdiv. rewrite Rmult_1_l, Rabs_inv, Rabs_pos_eq by lra.
    apply Rle_trans with (/ bpow radix2 (-990)).
    - apply Rinv_le; [apply bpow_gt_0|exact R1].
    - rewrite <- bpow_opp. apply bpow_le. lia. }
  rewrite O1 in D1. replace (1 / B2R rs) with (/ B2R rs) in D1 by (unfold Rdiv; ring).
  split; [auto|]. split; [split; assumption|]. split; [split; assumption|]. split; [auto|]. auto.
Qed.

(** the cell size *)
Lemma inv_range rs : bpow radix2 (-990) <= rs <= bpow radix2 1021 -> bpow radix2 (-1021) <= / rs <= bpow radix2 990.
Proof.
  intros [H1 H2]. assert (P : 0 < rs) by (apply Rlt_le_trans with (2 := H1), bpow_gt_0). split.
  - replace (bpow radix2 (-1021)) with (/ bpow radix2 1021) by (rewrite <- bpow_opp; reflexivity). apply Rinv_le; assumption.
  - replace (bpow radix2 990) with (/ bpow radix2 (-990)) by (rewrite <- bpow_opp; reflexivity).
    apply Rinv_le; [apply bpow_gt_0|exact H1].
Qed.
Lemma dx_range rs : bpow radix2 (-990) <= rs <= bpow radix2 1021 ->
  bpow radix2 (-1021) <= rnd64 (/ rs) <= bpow radix2 990 /\ Rabs (rnd64 (/ rs) - / rs) <= u53 * / rs.
Proof.
  intros H. destruct (inv_range rs H) as [H1 H2]. split.
  - split.
    + apply round_ge_generic; try typeclasses eauto; [|exact H1]. apply generic_format_bpow. unfold FLT_exp. lia.
    + apply round_le_generic; try typeclasses eauto; [|exact H2]. apply generic_format_bpow. unfold FLT_exp. lia.
  - assert (0 < / rs) by (apply Rlt_le_trans with (2 := H1), bpow_gt_0).
    rewrite <- (Rabs_pos_eq (/ rs)) at 3 by lra. apply rnd64_rel. rewrite Rabs_pos_eq by lra.
    apply Rle_trans with (2 := H1). apply bpow_le. lia.
Qed.

(** counting cells: x is the exact product, n the computed count *)
Lemma count x n : n = Zceil (rnd64 x) -> is_int32 n -> n = Zceil x \/ (n = (Zceil x - 1)%Z /\ rnd64 x = IZR n).
Proof.
  intros E H. assert (A : (n <= Zceil x)%Z \/ (2 ^ 52 <= Z.abs (Zceil x))%Z).
  { destruct (Z_lt_dec (Z.abs (Zceil x)) (2 ^ 52)) as [B|B]; [left|lia]. rewrite E. apply Zceil_glb.
    apply round_le_generic; try typeclasses eauto; [apply gen_ofZ; lia|apply Zceil_ub]. }
  assert (B : Rabs x <= IZR (2 ^ 40)).
  { destruct (Rle_or_lt (Rabs x) (IZR (2 ^ 40))) as [B|B]; [exact B|exfalso].
    assert (C : IZR (2 ^ 40) <= Rabs (rnd64 x)).
    { apply abs_round_ge_generic; try typeclasses eauto; [apply gen_ofZ; lia|lra]. }
    generalize (Zceil_ub (rnd64 x)), (Zceil_lb (rnd64 x)). rewrite <- E. intros U1 U2.
    unfold is_int32 in H. assert (D1 : IZR n <= IZR (2 ^ 31)) by (apply IZR_le; lia).
    assert (D2 : IZR (- 2 ^ 31) <= IZR n) by (apply IZR_le; lia).
    change (2 ^ 40)%Z with 1099511627776%Z in C. change (2 ^ 31)%Z with 2147483648%Z in D1. change (- 2 ^ 31)%Z with (-2147483648)%Z in D2.
    unfold Rabs in C. destruct Rcase_abs; lra. }
  apply Rabs_le_inv in B. rewrite <- opp_IZR in B. destruct B as [B1 B2].
  assert (C1 : (- 2 ^ 40 <= Zceil x)%Z).
  { apply le_IZR. apply Rle_trans with (1 := B1). apply Zceil_ub. }
  assert (C2 : (Zceil x <= 2 ^ 40)%Z) by (apply Zceil_glb; exact B2).
  destruct A as [A|A]; [|lia].
  assert (D : IZR (Zceil x - 1) <= rnd64 x).
  { apply round_ge_generic; try typeclasses eauto; [apply gen_ofZ; lia|]. rewrite minus_IZR. generalize (Zceil_lb x). lra. }
  assert (G : (Zceil x - 1 <= n)%Z) by (rewrite E; apply le_IZR; apply Rle_trans with (1 := D); apply Zceil_ub).
  destruct (Z.eq_dec n (Zceil x)) as [->|Hn]; [left; reflexivity|right]. split; [lia|].
  apply Rle_antisym; [rewrite E; apply Zceil_ub|]. replace n with (Zceil x - 1)%Z by lia. exact D.
Qed.

Lemma count64 x n : n = Zceil (rnd64 x) -> is_int32 n -> count_of x n.
Proof.
  intros E H. destruct (count x n E H) as [A|[A B]]; [left; exact A|right]. split; [exact A|].
  destruct (Rle_or_lt (bpow radix2 (-1022)) (Rabs x)) as [C|C].
  - left. rewrite <- B. rewrite Rabs_minus_sym. apply rnd64_rel, C.
  - right. exact C.
Qed.

(** the extent: x = l * rs, k = n - 1 steps of dx *)
Lemma ulp_up x : bpow radix2 (-1022) <= x -> ulp radix2 F64 x <= x * (2 * u53).
Proof.
  intros H. assert (0 < x) by (apply Rlt_le_trans with (2 := H), bpow_gt_0).
  replace (2 * u53) with (bpow radix2 (1 - 53)).
  - rewrite <- (Rabs_pos_eq x) at 2 by lra. apply ulp_FLT_le. rewrite Rabs_pos_eq by lra. exact H.
  - change 2 with (bpow radix2 1). rewrite <- bpow_plus. reflexivity.
Qed.
Lemma ulp_down x : 0 < x -> x * u53 < ulp radix2 F64 x.
Proof.
  intros H. rewrite <- (Rabs_pos_eq x) at 1 by lra. exact (@ulp_FLT_gt radix2 (-1074) 53 Hprec64 x).
Qed.

Lemma extent_le l rs k : generic_format radix2 F64 l -> 0 <= l -> bpow radix2 (-990) <= rs <= bpow radix2 1021 ->
  (-1 <= k < 2 ^ 31)%Z -> IZR k < rnd64 (l * rs) -> rnd64 (rnd64 (/ rs) * IZR k) <= l.
Proof.
  intros Fl Hl Hrs Hk H. destruct (dx_range rs Hrs) as [[D1 _] De]. destruct (inv_range rs Hrs) as [I1 I2].
  assert (Pd : 0 < rnd64 (/ rs)) by (apply Rlt_le_trans with (2 := D1), bpow_gt_0).
  assert (Pr : 0 < rs) by (apply Rlt_le_trans with (2 := proj1 Hrs), bpow_gt_0).
  assert (Pi : 0 < / rs) by (apply Rinv_0_lt_compat, Pr).
  destruct (Z_le_dec k 0) as [K0|K0].
  { apply Rle_trans with 0; [|exact Hl]. apply round_le_generic; try typeclasses eauto; [apply generic_format_0|].
    assert (IZR k <= 0) by (apply IZR_le; lia). nra. }
  assert (K1 : 1 <= IZR k) by (apply IZR_le; lia).
  assert (Fk : generic_format radix2 F64 (IZR k)) by (apply gen_ofZ; lia).
  assert (X : IZR k + ulp radix2 F64 (IZR k) / 2 <= l * rs).
  { destruct (Rle_or_lt (IZR k + ulp radix2 F64 (IZR k) / 2) (l * rs)) as [X|X]; [exact X|exfalso].
    assert (Y : rnd64 (l * rs) <= IZR k); [|lra].
    apply round_N_le_midp; [typeclasses eauto|exact Fk|]. rewrite succ_eq_pos by lra. lra. }
  generalize (ulp_down (IZR k)). intros U. specialize (U ltac:(lra)).
  assert (Hu := u53_small).
  assert (L1 : IZR k * (1 + u53 / 2) < l * rs) by nra.
  assert (L2 : IZR k * / rs * (1 + u53 / 2) < l).
  { apply Rmult_lt_reg_r with (1 := Pr). replace (IZR k * / rs * (1 + u53 / 2) * rs) with (IZR k * (1 + u53 / 2)) by (field; lra). exact L1. }
  assert (Q : 0 < IZR k * / rs) by (apply Rmult_lt_0_compat; lra).
  assert (Pl : 0 < l) by nra.
  generalize (ulp_down l Pl). intros U2.
  apply round_N_le_midp; [typeclasses eauto|exact Fl|]. rewrite succ_eq_pos by lra.
  apply Rle_lt_trans with (IZR k * / rs * (1 + u53)).
  - apply Rabs_le_inv in De. replace (IZR k * / rs * (1 + u53)) with ((/ rs + u53 * / rs) * IZR k) by ring.
    apply Rmult_le_compat_r; lra.
  - apply Rlt_le_trans with (l * (1 + u53 / 2)); [|lra].
    apply Rlt_trans with (IZR k * / rs * (1 + u53 / 2) * (1 + u53 / 2)).
    + replace (IZR k * / rs * (1 + u53 / 2) * (1 + u53 / 2)) with (IZR k * / rs * ((1 + u53 / 2) * (1 + u53 / 2))) by ring.
      apply Rmult_lt_compat_l; [exact Q|]. nra.
    + apply Rmult_lt_compat_r; lra.
Qed.

Lemma extent_ge l rs n : 0 <= l -> bpow radix2 (-990) <= rs <= bpow radix2 1021 ->
  (1 <= n < 2 ^ 31)%Z -> rnd64 (l * rs) <= IZR n ->
  l <= IZR n * rnd64 (/ rs) * (1 + 3 * u53) /\
  l - rnd64 (/ rs) * (1 + 4 * u53 * IZR n) <= rnd64 (rnd64 (/ rs) * IZR (n - 1)).
Proof.
  intros Hl Hrs Hn H. destruct (dx_range rs Hrs) as [[D1 D2] De]. destruct (inv_range rs Hrs) as [I1 I2].
  assert (Pd : 0 < rnd64 (/ rs)) by (apply Rlt_le_trans with (2 := D1), bpow_gt_0).
  assert (Pr : 0 < rs) by (apply Rlt_le_trans with (2 := proj1 Hrs), bpow_gt_0).
  assert (Pi : 0 < / rs) by (apply Rinv_0_lt_compat, Pr).
  assert (N1 : 1 <= IZR n) by (apply IZR_le; lia).
  assert (Hu := u53_small). assert (Hu' : u53 < / 16) by (apply Rlt_trans with (1 := proj2 Hu); apply Rinv_lt_contravar; simpl; lra).
  assert (X : l * rs <= IZR n + ulp radix2 F64 (IZR n) / 2).
  { destruct (Rle_or_lt (l * rs) (IZR n + ulp radix2 F64 (IZR n) / 2)) as [X|X]; [exact X|exfalso].
    assert (Fn : generic_format radix2 F64 (IZR n)) by (apply gen_ofZ; lia).
    assert (Y : succ radix2 F64 (IZR n) <= rnd64 (l * rs)).
    { apply round_N_ge_midp; [typeclasses eauto|apply generic_format_succ; [typeclasses eauto|exact Fn]|].
      rewrite pred_succ by (try typeclasses eauto; exact Fn). rewrite succ_eq_pos by lra. lra. }
    rewrite succ_eq_pos in Y by lra. generalize (ulp_down (IZR n)). intros U. specialize (U ltac:(lra)). nra. }
  assert (U : ulp radix2 F64 (IZR n) <= IZR n * (2 * u53)).
  { apply ulp_up. apply Rle_trans with 1; [|exact N1]. change 1 with (bpow radix2 0). apply bpow_le. lia. }
  assert (Y : l <= IZR n * / rs * (1 + u53)).
  { apply Rmult_le_reg_r with (1 := Pr). replace (IZR n * / rs * (1 + u53) * rs) with (IZR n * (1 + u53)) by (field; lra). nra. }
  apply Rabs_le_inv in De. set (d := rnd64 (/ rs)) in *. set (y := / rs) in *.
  assert (V : y * (1 - u53) <= d) by nra.
  assert (W : y * (1 + u53) <= d * (1 + 3 * u53)).
  { apply Rle_trans with (y * (1 - u53) * (1 + 3 * u53)); [|apply Rmult_le_compat_r; lra].
    replace (y * (1 - u53) * (1 + 3 * u53)) with (y * ((1 - u53) * (1 + 3 * u53))) by ring. apply Rmult_le_compat_l; nra. }
  assert (Z1 : l <= IZR n * d * (1 + 3 * u53)).
  { apply Rle_trans with (1 := Y). rewrite !Rmult_assoc. apply Rmult_le_compat_l; [lra|exact W]. }
  split; [exact Z1|].
  assert (E : Rabs (rnd64 (d * IZR (n - 1)) - d * IZR (n - 1)) <= u53 * Rabs (d * IZR (n - 1))).
  { destruct (Z.eq_dec n 1) as [->|Hne].
    - rewrite Rmult_0_r, round_0 by typeclasses eauto. rewrite Rminus_0_r, Rabs_R0. lra.
    - apply rnd64_rel. assert (1 <= IZR (n - 1)) by (apply IZR_le; lia).
      rewrite Rabs_pos_eq by nra. apply Rle_trans with (1 * d); [|nra].
      rewrite Rmult_1_l. apply Rle_trans with (2 := D1). apply bpow_le. lia. }
  assert (0 <= IZR (n - 1)) by (apply IZR_le; lia).
  rewrite (Rabs_pos_eq (d * IZR (n - 1))) in E by (apply Rmult_le_pos; lra).
  apply Rabs_le_inv in E. rewrite minus_IZR in *. nra.
Qed.
End Build.

(** ** the grid built from double arguments *)
Section Grid64.
Variable L : libm.

Lemma dx64 (Lx Ly rs : f64) pml (g : @grid (B64 L)) : resolution64 rs -> @mk_grid (B64 L) Lx Ly rs pml = Ok g ->
  bpow radix2 (-1021) <= B2R (g_dx g : f64) <= bpow radix2 990 /\ 0 < B2R (g_dx g : f64).
Proof.
  intros Hr H. destruct (build64 L Lx Ly rs pml g Hr H) as (_ & _ & _ & (_ & ->) & _). destruct Hr as [_ Hr].
  destruct (dx_range _ Hr) as [[A B] _]. split; [split; assumption|]. apply Rlt_le_trans with (2 := A), bpow_gt_0.
Qed.

Lemma count_grid64 (Lx Ly rs : f64) pml (g : @grid (B64 L)) : resolution64 rs -> @mk_grid (B64 L) Lx Ly rs pml = Ok g ->
  count_of (B2R Lx * B2R rs) (g_Nx g) /\ count_of (B2R Ly * B2R rs) (g_Ny g).
Proof.
  intros Hr H. destruct (build64 L Lx Ly rs pml g Hr H) as (_ & (A1 & A2) & (B1 & B2) & _). split; apply count64; assumption.
Qed.

(** dx times a count *)
Lemma times64 (d : f64) k : is_finite d = true -> bpow radix2 (-1021) <= B2R d <= bpow radix2 990 -> (-1 - 2 ^ 31 <= k < 2 ^ 31)%Z ->
  is_finite (f64_mul d (f64_ofZ k)) = true /\ B2R (f64_mul d (f64_ofZ k)) = rnd64 (B2R d * IZR k).
Proof.
  intros F [D1 D2] Hk. destruct (f64_ofZ_correct k) as [E Fk]; [lia|].
  assert (P : 0 < B2R d) by (apply Rlt_le_trans with (2 := D1), bpow_gt_0).
  destruct (mul_ok d (f64_ofZ k) F Fk) as [A B]; [|rewrite E in A; auto].
  rewrite E, Rabs_mult, (Rabs_pos_eq (B2R d)) by lra. replace (bpow radix2 1023) with (bpow radix2 990 * bpow radix2 33) by (rewrite <- bpow_plus; reflexivity).
  apply Rmult_le_compat; try apply Rabs_pos; try lra. rewrite <- abs_IZR. change (bpow radix2 33) with (IZR (2 ^ 33)). apply IZR_le. lia.
Qed.

Lemma extent1 (l rs d : f64) n : is_finite l = true -> 0 <= B2R l -> resolution64 rs -> is_finite d = true -> B2R d = rnd64 (/ B2R rs) ->
  n = Zceil (rnd64 (B2R l * B2R rs)) -> is_int32 n ->
  is_finite (f64_mul d (f64_ofZ (n - 1))) = true /\ B2R (f64_mul d (f64_ofZ (n - 1))) <= B2R l /\
  ((0 < n)%Z -> B2R l <= IZR n * B2R d * (1 + 3 * u53) /\ B2R l - B2R d * (1 + 4 * u53 * IZR n) <= B2R (f64_mul d (f64_ofZ (n - 1)))).
Proof.
  intros Fl Hl [_ Hr] Fd Ed En Hn.
  assert (P : 0 < B2R rs) by (apply Rlt_le_trans with (2 := proj1 Hr), bpow_gt_0).
  assert (N0 : (0 <= n)%Z).
  { rewrite En. apply le_IZR. apply Rle_trans with (2 := Zceil_ub _). apply round_ge_generic; try typeclasses eauto; [apply generic_format_0|nra]. }
  destruct (times64 d (n - 1) Fd) as [A B]; [rewrite Ed; apply dx_range, Hr|unfold is_int32 in Hn; lia|].
  split; [exact A|]. rewrite B, Ed. split.
  - apply extent_le; try assumption; [rewrite <- fexp64_FLT; apply generic_format_B2R|unfold is_int32 in Hn; lia|].
    generalize (Zceil_lb (rnd64 (B2R l * B2R rs))). rewrite <- En, minus_IZR. lra.
  - intros N1. apply extent_ge; try assumption; [unfold is_int32 in Hn; lia|]. rewrite En. apply Zceil_ub.
Qed.

Lemma extent64 (Lx Ly rs : f64) pml (g : @grid (B64 L)) : resolution64 rs -> 0 <= B2R Lx -> 0 <= B2R Ly ->
  @mk_grid (B64 L) Lx Ly rs pml = Ok g ->
  (B2R (g_Lx g : f64) <= B2R Lx /\
   ((0 < g_Nx g)%Z -> B2R Lx - B2R (g_dx g : f64) * (1 + 4 * u53 * IZR (g_Nx g)) <= B2R (g_Lx g : f64))) /\
  (B2R (g_Ly g : f64) <= B2R Ly /\
   ((0 < g_Ny g)%Z -> B2R Ly - B2R (g_dx g : f64) * (1 + 4 * u53 * IZR (g_Ny g)) <= B2R (g_Ly g : f64))).
Proof.
  intros Hr H1 H2 H. destruct (build64 L Lx Ly rs pml g Hr H) as ((F1 & F2) & (A1 & A2) & (B1 & B2) & (Fd & Ed) & E1 & E2 & _).
  destruct (extent1 Lx rs (g_dx g) (g_Nx g) F1 H1 Hr Fd Ed A1 A2) as (_ & C1 & C2).
  destruct (extent1 Ly rs (g_dx g) (g_Ny g) F2 H2 Hr Fd Ed B1 B2) as (_ & D1 & D2).
  rewrite E1, E2. split; (split; [assumption|]); intros K; [apply C2|apply D2]; exact K.
Qed.

Lemma within1 (p d : f64) n : is_finite p = true -> bpow radix2 (-1021) <= B2R d -> is_int32 n ->
  0 <= B2R p <= rnd64 (B2R d * IZR (n - 1)) -> Rabs (B2R p / B2R d) <= IZR (2 ^ 31 - 1).
Proof.
  intros Fp D1 Hn [P1 P2]. assert (P : 0 < B2R d) by (apply Rlt_le_trans with (2 := D1), bpow_gt_0).
  assert (Pi : 0 < / B2R d) by (apply Rinv_0_lt_compat, P).
  rewrite Rabs_pos_eq by (unfold Rdiv; nra). apply Rmult_le_reg_r with (1 := P).
  unfold Rdiv. rewrite Rmult_assoc, Rinv_l, Rmult_1_r by lra. apply Rle_trans with (1 := P2).
  assert (N1 : IZR (n - 1) <= IZR (2 ^ 31 - 2)) by (apply IZR_le; unfold is_int32 in Hn; lia).
  assert (Hu := u53_small).
  destruct (Z_le_dec (n - 1) 0) as [K|K].
  - apply Rle_trans with 0.
    + apply round_le_generic; try typeclasses eauto; [apply generic_format_0|]. assert (IZR (n - 1) <= 0) by (apply IZR_le; lia). nra.
    + apply Rmult_le_pos; [apply IZR_le; lia|lra].
  - assert (K1 : 1 <= IZR (n - 1)) by (apply IZR_le; lia).
    assert (E : Rabs (rnd64 (B2R d * IZR (n - 1)) - B2R d * IZR (n - 1)) <= u53 * Rabs (B2R d * IZR (n - 1))).
    { apply rnd64_rel. rewrite Rabs_pos_eq by nra. apply Rle_trans with (B2R d * 1); [|nra].
      rewrite Rmult_1_r. apply Rle_trans with (2 := D1). apply bpow_le. lia. }
    rewrite (Rabs_pos_eq (B2R d * IZR (n - 1))) in E by nra. apply Rabs_le_inv in E.
    apply Rle_trans with (B2R d * (IZR (n - 1) * (1 + u53))); [nra|]. rewrite Rmult_comm. apply Rmult_le_compat_r; [lra|].
    change (IZR (2 ^ 31 - 2)) with 2147483646 in N1. change (IZR (2 ^ 31 - 1)) with 2147483647.
    assert (u53 <= / 4294967296).
    { apply Rlt_le, Rlt_le_trans with (1 := proj2 Hu). apply Rinv_le; [lra|simpl; lra]. }
    nra.
Qed.

Lemma domain64 (Lx Ly rs : f64) pml (g : @grid (B64 L)) (p : f64 * f64) : resolution64 rs ->
  @mk_grid (B64 L) Lx Ly rs pml = Ok g -> is_finite (fst p) = true -> is_finite (snd p) = true ->
  0 <= B2R (fst p) <= B2R (g_Lx g : f64) -> 0 <= B2R (snd p) <= B2R (g_Ly g : f64) ->
  exists q, @to_grid (B64 L) g p = Ok q /\ in_grid (g_Nx g) (g_Ny g) q.
Proof.
  intros Hr H F1 F2 P1 P2. destruct (dx64 Lx Ly rs pml g Hr H) as [Dr Dp].
  destruct (build64 L Lx Ly rs pml g Hr H) as (_ & (_ & A2) & (_ & B2) & (Fd & Ed) & E1 & E2 & _).
  unfold is_int32 in A2, B2.
  destruct (times64 (g_dx g) (g_Nx g - 1) Fd Dr) as [G1 G2]; [lia|].
  destruct (times64 (g_dx g) (g_Ny g - 1) Fd Dr) as [G3 G4]; [lia|].
  rewrite E1 in P1. rewrite E2 in P2. 
  destruct (total64 L g p Dp F1 F2) as [[i j] Q].
  { rewrite G2 in P1. apply within1 with (g_Nx g); [exact F1|apply Dr|unfold is_int32; lia|exact P1]. }
  { rewrite G4 in P2. apply within1 with (g_Ny g); [exact F2|apply Dr|unfold is_int32; lia|exact P2]. }
  exists (i, j). split; [exact Q|].
  assert (Rt : forall k l, is_int32 k -> is_int32 l -> @to_grid (B64 L) g (@to_real (B64 L) g (k, l)) = Ok (k, l)).
  { intros k l Hk Hl. apply round_trip_b64; [exact Fd| |exact Hk|exact Hl]. rewrite Rabs_pos_eq by lra. split; [|apply Dr].
    apply Rle_trans with (2 := proj1 Dr). apply bpow_le. lia. }
  destruct (f64_ofZ_correct 0) as [Z0 _]; [lia|].
  assert (T0 : B2R (f64_mul (g_dx g) (f64_ofZ 0)) = 0).
  { destruct (times64 (g_dx g) 0 Fd Dr) as [_ ->]; [lia|]. rewrite Rmult_0_r, round_0 by typeclasses eauto. reflexivity. }
  assert (O : @to_grid (B64 L) g (@to_real (B64 L) g (0, 0)%Z) = Ok (0, 0)%Z) by (apply Rt; unfold is_int32; lia).
  destruct (mono64 L g _ p 0 0 i j Dp O Q) as [M1 M2].
  unfold to_real in M1, M2. cbn [fst snd] in M1, M2. change (@nmul (B64 L)) with f64_mul in *. change (@nofZ (B64 L)) with f64_ofZ in *.
  rewrite T0 in M1, M2. specialize (M1 (proj1 P1)). specialize (M2 (proj1 P2)).
  assert (NX : (1 <= g_Nx g)%Z).
  { destruct (Z_le_dec 1 (g_Nx g)) as [|K]; [assumption|exfalso]. rewrite G2 in P1.
    assert (rnd64 (B2R (g_dx g : f64) * IZR (g_Nx g - 1)) < 0); [|lra].
    apply Rle_lt_trans with (- bpow radix2 (-1021)); [|generalize (bpow_gt_0 radix2 (-1021)); lra].
    apply round_le_generic; try typeclasses eauto; [apply generic_format_opp, generic_format_bpow; unfold FLT_exp; lia|].
    assert (IZR (g_Nx g - 1) <= -1) by (apply IZR_le; lia). destruct Dr. nra. }
  assert (NY : (1 <= g_Ny g)%Z).
  { destruct (Z_le_dec 1 (g_Ny g)) as [|K]; [assumption|exfalso]. rewrite G4 in P2.
    assert (rnd64 (B2R (g_dx g : f64) * IZR (g_Ny g - 1)) < 0); [|lra].
    apply Rle_lt_trans with (- bpow radix2 (-1021)); [|generalize (bpow_gt_0 radix2 (-1021)); lra].
    apply round_le_generic; try typeclasses eauto; [apply generic_format_opp, generic_format_bpow; unfold FLT_exp; lia|].
    assert (IZR (g_Ny g - 1) <= -1) by (apply IZR_le; lia). destruct Dr. nra. }
  assert (C : @to_grid (B64 L) g (@to_real (B64 L) g (g_Nx g - 1, g_Ny g - 1)%Z) = Ok (g_Nx g - 1, g_Ny g - 1)%Z)
    by (apply Rt; unfold is_int32; lia).
  destruct (mono64 L g p _ i j _ _ Dp Q C) as [M3 M4].
  unfold to_real in M3, M4. cbn [fst snd] in M3, M4. change (@nmul (B64 L)) with f64_mul in *. change (@nofZ (B64 L)) with f64_ofZ in *.
  specialize (M3 (proj2 P1)). specialize (M4 (proj2 P2)). unfold in_grid. cbn [fst snd]. lia.
Qed.

(** the requested edge *)
Lemma edge64 (Lx Ly rs : f64) pml (g : @grid (B64 L)) (y : f64) i j : resolution64 rs -> 0 <= B2R Lx -> (0 < g_Nx g)%Z ->
  @mk_grid (B64 L) Lx Ly rs pml = Ok g -> @to_grid (B64 L) g (Lx, y) = Ok (i, j) -> i = (g_Nx g - 1)%Z \/ i = g_Nx g.
Proof.
  intros Hr H1 N1 H Q. destruct (dx64 Lx Ly rs pml g Hr H) as [Dr Dp].
  destruct (build64 L Lx Ly rs pml g Hr H) as ((F1 & _) & (A1 & A2) & _ & (Fd & Ed) & _).
  destruct (extent1 Lx rs (g_dx g) (g_Nx g) F1 H1 Hr Fd Ed A1 A2) as (_ & C1 & C2). destruct (C2 N1) as [C3 _].
  destruct (near64 L g _ i j Dp Q) as [Hn _]. cbn [fst] in Hn. unfold almost_nearest in Hn.
  assert (Pi : 0 < / B2R (g_dx g : f64)) by (apply Rinv_0_lt_compat, Dp).
  assert (Q1 : 0 <= B2R Lx / B2R (g_dx g : f64)) by (unfold Rdiv; nra).
  assert (Q2 : B2R Lx / B2R (g_dx g : f64) <= IZR (g_Nx g) * (1 + 3 * u53)).
  { apply Rmult_le_reg_r with (1 := Dp). unfold Rdiv. rewrite Rmult_assoc, Rinv_l by lra. lra. }
  rewrite (Rabs_pos_eq (B2R Lx / _)) in Hn by exact Q1. apply Rabs_le_inv in Hn.
  assert (Nb : IZR (g_Nx g) <= 2147483648) by (apply IZR_le; unfold is_int32 in A2; lia).
  assert (Hu := u53_small). assert (Hu' : u53 <= / 1125899906842624) by (apply Rlt_le, Rlt_le_trans with (1 := proj2 Hu); simpl; lra).
  assert (Np : 1 <= IZR (g_Nx g)) by (apply IZR_le; lia).
  assert (U : (i < g_Nx g + 1)%Z).
  { apply lt_IZR. rewrite plus_IZR. set (q := B2R Lx / _) in *. nra. }
  assert (C : @to_grid (B64 L) g (@to_real (B64 L) g (g_Nx g - 1, 0)%Z) = Ok (g_Nx g - 1, 0)%Z).
  { apply round_trip_b64; [exact Fd| | |unfold is_int32; lia]; [|unfold is_int32 in *; lia]. rewrite Rabs_pos_eq by lra. split; [|apply Dr].
    apply Rle_trans with (2 := proj1 Dr). apply bpow_le. lia. }
  destruct (mono64 L g _ _ _ _ _ _ Dp C Q) as [M1 _]. unfold to_real in M1. cbn [fst] in M1.
  change (@nmul (B64 L)) with f64_mul in *. change (@nofZ (B64 L)) with f64_ofZ in *. specialize (M1 C1). lia.
Qed.

(** surfaces *)
Lemma sub_zero (x y : f64) : Beqb (@Babs 53 1024 (f64_sub x y)) (f64_ofZ 0) = true ->
  is_finite x = true /\ is_finite y = true /\ B2R x = B2R y.
Proof.
  intros H. assert (D : exists s, f64_sub x y = B754_zero s).
  { destruct (f64_sub x y) as [s|s| |s m e B] eqn:E; [eauto| | |]; exfalso; revert H; vm_compute; try discriminate; destruct s; discriminate. }
  destruct D as [s D]. unfold f64_sub in D.
  assert (Fx : is_finite x = true).
  { destruct x as [sx|[|]| |sx mx ex Bx]; try reflexivity; destruct y as [sy|[|]| |sy my ey By]; discriminate D. }
  assert (Fy : is_finite y = true).
  { destruct y as [sy|[|]| |sy my ey By]; try reflexivity; destruct x as [sx|[|]| |sx mx ex Bx]; discriminate D. }
  split; [exact Fx|]. split; [exact Fy|].
  generalize (@Bminus_correct 53 1024 Hprec64 Hemax64 mode_NE x y Fx Fy). rewrite D.
  change (round_mode mode_NE) with ZnearestE. rewrite fexp64_FLT. destruct Rlt_bool.
  - intros [E _]. cbn [B2R] in E. destruct (Req_dec (B2R x) (B2R y)) as [|Hne]; [assumption|exfalso].
    unfold Rminus in E. symmetry in E. revert E. apply round_plus_neq_0; try typeclasses eauto.
    + rewrite <- fexp64_FLT. apply generic_format_B2R.
    + apply generic_format_opp. rewrite <- fexp64_FLT. apply generic_format_B2R.
    + lra.
  - intros [E _]. discriminate E.
Qed.

Lemma isurface_not_throw ia ib sg e : fst ia = fst ib \/ snd ia = snd ib -> mk_isurface ia ib sg <> Throw e.
Proof.
  intros Hi. unfold mk_isurface, i32. destruct (in_i32 (fst ia - fst ib)) eqn:R0; [|discriminate].
  cbn [bind]. destruct (in_i32 (snd ia - snd ib)) eqn:R1; [|discriminate]. cbn [bind fst snd].
  destruct (Z.abs (fst ia - fst ib) =? 0)%Z eqn:E0; cbn [bind].
  - unfold inorm, i32. match goal with |- context [in_i32 ?z] => destruct (in_i32 z) end; [|discriminate].
    cbn [bind]. match goal with |- context [(?z =? 0)%Z] => destruct (z =? 0)%Z end; discriminate.
  - destruct (Z.abs (snd ia - snd ib) =? 0)%Z eqn:E1; [|lia].
    cbn [bind]. unfold inorm, i32. match goal with |- context [in_i32 ?z] => destruct (in_i32 z) end; [|discriminate].
    cbn [bind]. match goal with |- context [(?z =? 0)%Z] => destruct (z =? 0)%Z end; discriminate.
Qed.

Lemma surface_axis (a b : f64 * f64) sg s : @mk_surface (B64 L) a b sg = Ok s ->
  (s_a s = a /\ s_b s = b /\ s_sign s = sg) /\ (B2R (fst a) = B2R (fst b) \/ B2R (snd a) = B2R (snd b)).
Proof.
  unfold mk_surface. cbv zeta.
  change (@neqb (B64 L) (fst (@vabs (B64 L) (@vsub (B64 L) a b))) (@nofZ (B64 L) 0)) with (Beqb (@Babs 53 1024 (f64_sub (fst a) (fst b))) (f64_ofZ 0)).
  change (@neqb (B64 L) (snd (@vabs (B64 L) (@vsub (B64 L) a b))) (@nofZ (B64 L) 0)) with (Beqb (@Babs 53 1024 (f64_sub (snd a) (snd b))) (f64_ofZ 0)).
  destruct (Beqb (Babs (f64_sub (fst a) (fst b))) (f64_ofZ 0)) eqn:E1; cbn [bind].
  - intros H. injection H as <-. cbn [s_a s_b s_sign]. split; [auto|]. left. apply sub_zero, E1.
  - destruct (Beqb (Babs (f64_sub (snd a) (snd b))) (f64_ofZ 0)) eqn:E2; cbn [bind]; [|discriminate].
    intros H. injection H as <-. cbn [s_a s_b s_sign]. split; [auto|]. right. apply sub_zero, E2.
Qed.

Lemma surface64 (g : @grid (B64 L)) (a b : f64 * f64) sg s e : 0 < B2R (g_dx g : f64) ->
  @mk_surface (B64 L) a b sg = Ok s -> @to_grid_surface (B64 L) g s <> Throw e.
Proof.
  intros Hd Hs. destruct (surface_axis a b sg s Hs) as ((Ea & Eb & _) & Hax).
  unfold to_grid_surface. rewrite Ea, Eb.
  assert (NT : forall p e', @to_grid (B64 L) g p <> Throw e').
  { intros p e'. unfold to_grid. destruct (@nround (B64 L) _); [|discriminate]. cbn [ofOption bind].
    destruct (@nround (B64 L) _); discriminate. }
  destruct (@to_grid (B64 L) g a) as [[i j]|e'|u] eqn:E1; [|exfalso; eapply NT; exact E1|discriminate].
  destruct (@to_grid (B64 L) g b) as [[k l]|e'|u] eqn:E2; [|exfalso; eapply NT; exact E2|discriminate].
  cbn [bind]. apply isurface_not_throw. cbn [fst snd].
  apply to_grid_inv in E1, E2; try lra. destruct E1 as ((_ & -> & _) & (_ & -> & _)), E2 as ((_ & -> & _) & (_ & -> & _)).
  destruct Hax as [->| ->]; auto.
Qed.
End Grid64.
