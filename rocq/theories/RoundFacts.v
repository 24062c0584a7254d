(** Rounding errors of the time step: proofs of C88. *)
From Coq Require Import ZArith Reals Bool Lia Psatz.
From Flocq Require Import Core.Core IEEE754.BinarySingleNaN Relative.
From Verif Require Import Scalar Base BaseFacts Float FloatFacts SpecStep SpecRound DoubleFacts.
Local Open Scope R_scope.

Definition w (k : nat) : R := (1 + unit_error) ^ k.

Lemma ue_small : 0 < unit_error < / 2 ^ 50.
Proof. exact u53_small. Qed.
Lemma tiny_pos : 0 < tiny.
Proof. apply bpow_gt_0. Qed.
Lemma w_ge1 k : 1 <= w k.
Proof. apply pow_R1_Rle. generalize ue_small. lra. Qed.
Lemma w_S k : w (S k) = w k * (1 + unit_error).
Proof. unfold w. cbn [pow]. ring. Qed.
Lemma w_mono a b : (a <= b)%nat -> w a <= w b.
Proof. intros H. apply Rle_pow; [generalize ue_small; lra|exact H]. Qed.
Lemma w_bound k : (Z.of_nat k <= 2 ^ 53)%Z -> w k <= 4.
Proof.
  intros H. apply Rle_trans with (exp (INR k * unit_error)).
  - unfold w. clear H. induction k as [|k IH]; [cbn; rewrite Rmult_0_l, exp_0; lra|].
    rewrite S_INR, Rmult_plus_distr_r, Rmult_1_l, exp_plus. cbn [pow]. rewrite Rmult_comm.
    assert (U := ue_small). apply Rmult_le_compat; [apply pow_le; lra|lra|exact IH|].
    generalize (exp_ineq1_le unit_error). lra.
  - apply Rle_trans with (exp 1); [|generalize exp_le_3; lra].
    assert (A : INR k * unit_error <= 1).
    { rewrite INR_IZR_INZ. apply IZR_le in H. replace 1 with (IZR (2 ^ 53) * unit_error).
      - apply Rmult_le_compat_r; [generalize ue_small; lra|exact H].
      - unfold unit_error. change (IZR (2 ^ 53)) with (bpow radix2 53). rewrite <- bpow_plus. reflexivity. }
    destruct A as [A|A]; [left; apply exp_increasing, A|right; now rewrite A].
Qed.

(** one rounding *)
Lemma rnd_err x : Rabs (rnd64 x - x) <= unit_error * (Rabs x + tiny).
Proof.
  destruct (Rle_or_lt tiny (Rabs x)) as [H|H].
  - apply Rle_trans with (1 := rnd64_rel x H). generalize ue_small tiny_pos (Rabs_pos x). unfold unit_error. intros. nra.
  - assert (E : Rabs (rnd64 x - x) <= / 2 * bpow radix2 (-1074)).
    { apply Rle_trans with (/ 2 * ulp radix2 (FLT_exp (-1074) 53) x); [apply error_le_half_ulp; typeclasses eauto|].
      rewrite (@ulp_FLT_small radix2 (-1074) 53 Hprec64); [lra|].
      apply Rlt_trans with (1 := H). unfold tiny. apply bpow_lt. lia. }
    apply Rle_trans with (1 := E). replace (/ 2 * bpow radix2 (-1074)) with (unit_error * tiny).
    + apply Rmult_le_compat_l; [generalize ue_small; lra|generalize (Rabs_pos x); lra].
    + unfold unit_error, tiny. rewrite <- bpow_plus. change (/ 2) with (bpow radix2 (-1)). rewrite <- bpow_plus. reflexivity.
Qed.

Lemma fits s : Rabs s <= bpow radix2 1010 -> Rlt_bool (Rabs (rnd64 s)) (bpow radix2 1024) = true.
Proof.
  intros H. apply Rlt_bool_true. apply Rle_lt_trans with (bpow radix2 1010); [|apply bpow_lt; lia].
  apply abs_round_le_generic; try typeclasses eauto; [|exact H]. apply generic_format_bpow. unfold FLT_exp. lia.
Qed.

(** a double [x], the exact value [v] it stands for, its magnitude [m] of at most 2^e, after a depth of k
    operations *)
Definition close (k : nat) (e : Z) (x : f64) (v m : R) : Prop :=
  (0 <= e)%Z /\ (w k <= 4 -> (e <= 1000)%Z ->
  is_finite x = true /\ Rabs (B2R x - v) <= (w k - 1) * m /\ Rabs v <= m /\ m <= bpow radix2 e).

Lemma close_le k k' e e' x v m : (k <= k')%nat -> (e <= e')%Z -> close k e x v m -> close k' e' x v m.
Proof.
  intros H1 H2 [P H]. split; [lia|]. intros W E. assert (w k <= w k') by (apply w_mono, H1).
  destruct H as (F & A & B & C); [lra|lia|]. split; [exact F|]. assert (0 <= m) by (generalize (Rabs_pos v); lra).
  split; [|split; [exact B|apply Rle_trans with (1 := C), bpow_le; lia]].
  apply Rle_trans with (1 := A). apply Rmult_le_compat_r; lra.
Qed.

Lemma rounded k (s v M r : R) : Rabs (s - v) <= (w k - 1) * M -> Rabs v <= M -> r = rnd64 s ->
  Rabs (r - v) <= (w (S k) - 1) * (M + tiny) /\ Rabs v <= M + tiny.
Proof.
  intros A B ->. assert (T := tiny_pos). assert (U := ue_small). assert (W := w_ge1 k). split; [|lra].
  assert (S : Rabs s <= w k * M).
  { replace s with ((s - v) + v) by ring. apply Rle_trans with (1 := Rabs_triang _ _). lra. }
  assert (E := rnd_err s). replace (rnd64 s - v) with ((rnd64 s - s) + (s - v)) by ring.
  apply Rle_trans with (1 := Rabs_triang _ _). rewrite w_S. assert (0 <= M) by (generalize (Rabs_pos v); lra).
  assert (unit_error * Rabs s <= unit_error * (w k * M)) by (apply Rmult_le_compat_l; lra).
  assert (0 <= (w k - 1) * tiny) by (apply Rmult_le_pos; lra).
  assert (0 <= (w k - 1) * (unit_error * tiny)) by (apply Rmult_le_pos; nra). nra.
Qed.

Lemma tiny_le e : (0 <= e)%Z -> tiny <= bpow radix2 e.
Proof. intros H. apply bpow_le. lia. Qed.
Lemma four_le W M e : 1 <= W <= 4 -> 0 <= M <= bpow radix2 e -> (e <= 1000)%Z -> W * M <= bpow radix2 1010.
Proof.
  intros HW HM He. apply Rle_trans with (4 * bpow radix2 e).
  - apply Rmult_le_compat; lra.
  - change 4 with (bpow radix2 2). rewrite <- bpow_plus. apply bpow_le. lia.
Qed.

Section Ops.
Variable L : libm.

Lemma sum_close (op : R -> R -> R) (opf : f64 -> f64 -> f64) k1 k2 e1 e2 (x y : f64) (v z m n : R) :
  (forall a b c d, Rabs (op a b - op c d) <= Rabs (a - c) + Rabs (b - d)) ->
  (forall a b, Rabs (op a b) <= Rabs a + Rabs b) ->
  (forall a b : f64, is_finite a = true -> is_finite b = true -> Rlt_bool (Rabs (rnd64 (op (B2R a) (B2R b)))) (bpow radix2 1024) = true ->
     is_finite (opf a b) = true /\ B2R (opf a b) = rnd64 (op (B2R a) (B2R b))) ->
  close k1 e1 x v m -> close k2 e2 y z n ->
  close (S (Nat.max k1 k2)) (Z.max e1 e2 + 2) (opf x y) (op v z) (m + n + tiny).
Proof.
  intros O1 O2 O3 H1 H2. assert (P1 := proj1 H1). assert (P2 := proj1 H2). set (k := Nat.max k1 k2). set (e := Z.max e1 e2).
  assert (G1 : close k e x v m) by (apply close_le with (3 := H1); lia).
  assert (G2 : close k e y z n) by (apply close_le with (3 := H2); lia).
  split; [lia|]. intros W E. assert (W' : w k <= 4) by (apply Rle_trans with (2 := W), w_mono; lia).
  destruct (proj2 G1 W' ltac:(lia)) as (F1 & A1 & B1 & C1). destruct (proj2 G2 W' ltac:(lia)) as (F2 & A2 & B2 & C2).
  assert (Wk := w_ge1 k).
  assert (D : Rabs (op (B2R x) (B2R y) - op v z) <= (w k - 1) * (m + n)) by (specialize (O1 (B2R x) (B2R y) v z); lra).
  assert (V : Rabs (op v z) <= m + n) by (specialize (O2 v z); lra).
  assert (0 <= m) by (generalize (Rabs_pos v); lra). assert (0 <= n) by (generalize (Rabs_pos z); lra).
  assert (Mn : m + n <= bpow radix2 (e + 1)) by (rewrite bpow_plus; change (bpow radix2 1) with 2; lra).
  destruct (O3 x y F1 F2) as [F R].
  { apply fits. apply Rle_trans with (w k * (m + n)).
    - replace (op (B2R x) (B2R y)) with ((op (B2R x) (B2R y) - op v z) + op v z) by ring. apply Rle_trans with (1 := Rabs_triang _ _). lra.
    - apply four_le with (e + 1)%Z; [lra|lra|lia]. }
  split; [exact F|]. destruct (rounded k _ _ _ _ D V R) as [X Y]. split; [exact X|]. split; [exact Y|].
  assert (T := tiny_le (e + 1) ltac:(lia)). replace (e + 2)%Z with (e + 1 + 1)%Z by ring. rewrite (bpow_plus _ (e + 1) 1). change (bpow radix2 1) with 2. lra.
Qed.

Lemma add_close k1 k2 e1 e2 (x y : @T (B64 L)) (v z : @T RNum) (m n : @T Magnitude) :
  close k1 e1 x v m -> close k2 e2 y z n ->
  close (S (Nat.max k1 k2)) (Z.max e1 e2 + 2) (@nadd (B64 L) x y) (@nadd RNum v z) (@nadd Magnitude m n).
Proof.
  apply (sum_close Rplus f64_add).
  - intros a b c d. replace (a + b - (c + d)) with ((a - c) + (b - d)) by ring. apply Rabs_triang.
  - intros a b. apply Rabs_triang.
  - intros a b Fa Fb Hb. unfold f64_add. generalize (@Bplus_correct 53 1024 Hprec64 Hemax64 mode_NE a b Fa Fb).
    change (round_mode mode_NE) with ZnearestE. rewrite fexp64_FLT, Hb. intros [A [B _]]. auto.
Qed.
Lemma sub_close k1 k2 e1 e2 (x y : @T (B64 L)) (v z : @T RNum) (m n : @T Magnitude) :
  close k1 e1 x v m -> close k2 e2 y z n ->
  close (S (Nat.max k1 k2)) (Z.max e1 e2 + 2) (@nsub (B64 L) x y) (@nsub RNum v z) (@nsub Magnitude m n).
Proof.
  apply (sum_close Rminus f64_sub).
  - intros a b c d. replace (a - b - (c - d)) with ((a - c) + - (b - d)) by ring. rewrite <- (Rabs_Ropp (b - d)). apply Rabs_triang.
  - intros a b. unfold Rminus. rewrite <- (Rabs_Ropp b). apply Rabs_triang.
  - intros a b Fa Fb Hb. unfold f64_sub. generalize (@Bminus_correct 53 1024 Hprec64 Hemax64 mode_NE a b Fa Fb).
    change (round_mode mode_NE) with ZnearestE. rewrite fexp64_FLT, Hb. intros [A [B _]]. auto.
Qed.

Lemma mul_close a k e (c x : @T (B64 L)) (v : @T RNum) (m : @T Magnitude) : (0 <= a)%Z -> moderate a c -> close k e x v m ->
  close (S k) (e + (a + 1)) (@nmul (B64 L) c x) (@nmul RNum (value L c) v) (@nmul Magnitude (size L c) m).
Proof.
  intros Ha [Fc Mc] [P H]. split; [lia|]. intros W E. assert (Wk := w_ge1 k).
  assert (W' : w k <= 4) by (apply Rle_trans with (2 := W), w_mono; lia).
  destruct H as (F & A & B & C); [exact W'|lia|]. change (@nmul (B64 L)) with f64_mul. change (@nmul RNum) with Rmult.
  change (@nmul Magnitude (size L c) m) with (Rabs (B2R (c : f64)) * m + tiny). unfold value.
  set (b := B2R (c : f64)) in *. assert (0 <= Rabs b) by apply Rabs_pos. assert (0 <= m) by (generalize (Rabs_pos v); lra).
  assert (D : Rabs (b * B2R (x : f64) - b * v) <= (w k - 1) * (Rabs b * m)).
  { rewrite <- Rmult_minus_distr_l, Rabs_mult. replace ((w k - 1) * (Rabs b * m)) with (Rabs b * ((w k - 1) * m)) by ring.
    apply Rmult_le_compat_l; [lra|exact A]. }
  assert (V : Rabs (b * v) <= Rabs b * m) by (rewrite Rabs_mult; apply Rmult_le_compat_l; lra).
  assert (Mn : Rabs b * m <= bpow radix2 (e + a)) by (rewrite Z.add_comm, bpow_plus; apply Rmult_le_compat; lra).
  assert (Hb : Rlt_bool (Rabs (rnd64 (b * B2R (x : f64)))) (bpow radix2 1024) = true).
  { apply fits. apply Rle_trans with (w k * (Rabs b * m)).
    - replace (b * B2R (x : f64)) with ((b * B2R (x : f64) - b * v) + b * v) by ring. apply Rle_trans with (1 := Rabs_triang _ _). lra.
    - apply four_le with (e + a)%Z; [lra| |lia]. split; [apply Rmult_le_pos; lra|exact Mn]. }
  unfold f64_mul. generalize (@Bmult_correct 53 1024 Hprec64 Hemax64 mode_NE c x).
  change (round_mode mode_NE) with ZnearestE. rewrite fexp64_FLT. fold b. rewrite Hb. intros [R1 [R2 _]].
  rewrite R2. split; [rewrite Fc, F; reflexivity|]. destruct (rounded k _ _ _ _ D V R1) as [X Y]. split; [exact X|]. split; [exact Y|].
  assert (Tn := tiny_le (e + a) ltac:(lia)). replace (e + (a + 1))%Z with (e + a + 1)%Z by ring. rewrite (bpow_plus _ (e + a) 1). change (bpow radix2 1) with 2. lra.
Qed.

Lemma div_close a k e (s x : @T (B64 L)) (v : @T RNum) (m : @T Magnitude) : (0 <= a)%Z -> divisor a s -> close k e x v m ->
  close (S k) (e + (a + 1)) (@ndiv (B64 L) x s) (@ndiv RNum v (value L s)) (@ndiv Magnitude m (size L s)).
Proof.
  intros Ha Ds [P H]. split; [lia|]. intros W E. assert (Wk := w_ge1 k). unfold divisor in Ds.
  assert (W' : w k <= 4) by (apply Rle_trans with (2 := W), w_mono; lia).
  destruct H as (F & A & B & C); [exact W'|lia|]. change (@ndiv (B64 L)) with f64_div. change (@ndiv RNum) with Rdiv.
  change (@ndiv Magnitude m (size L s)) with (m / Rabs (B2R (s : f64)) + tiny). unfold value.
  set (b := B2R (s : f64)) in *. assert (Pa : 0 < Rabs b) by (apply Rlt_le_trans with (2 := Ds), bpow_gt_0).
  assert (Na : b <> 0) by (intros Z0; rewrite Z0, Rabs_R0 in Pa; lra).
  assert (Pi : 0 < / Rabs b) by (apply Rinv_0_lt_compat, Pa). assert (0 <= m) by (generalize (Rabs_pos v); lra).
  assert (Ia : / Rabs b <= bpow radix2 a).
  { replace (bpow radix2 a) with (/ bpow radix2 (- a)) by (rewrite bpow_opp, Rinv_inv; reflexivity). apply Rinv_le; [apply bpow_gt_0|exact Ds]. }
  assert (D : Rabs (B2R (x : f64) / b - v / b) <= (w k - 1) * (m / Rabs b)).
  { unfold Rdiv. rewrite <- Rmult_minus_distr_r, Rabs_mult, Rabs_inv. replace ((w k - 1) * (m * / Rabs b)) with ((w k - 1) * m * / Rabs b) by ring.
    apply Rmult_le_compat_r; [lra|exact A]. }
  assert (V : Rabs (v / b) <= m / Rabs b) by (unfold Rdiv; rewrite Rabs_mult, Rabs_inv; apply Rmult_le_compat_r; lra).
  assert (Mn : m / Rabs b <= bpow radix2 (e + a)) by (rewrite bpow_plus; unfold Rdiv; apply Rmult_le_compat; lra).
  assert (M0 : 0 <= m / Rabs b) by (unfold Rdiv; apply Rmult_le_pos; lra).
  assert (Hb : Rlt_bool (Rabs (rnd64 (B2R (x : f64) / b))) (bpow radix2 1024) = true).
  { apply fits. apply Rle_trans with (w k * (m / Rabs b)).
    - replace (B2R (x : f64) / b) with ((B2R (x : f64) / b - v / b) + v / b) by ring. apply Rle_trans with (1 := Rabs_triang _ _). lra.
    - apply four_le with (e + a)%Z; [lra|lra|lia]. }
  unfold f64_div. generalize (@Bdiv_correct 53 1024 Hprec64 Hemax64 mode_NE x s Na).
  change (round_mode mode_NE) with ZnearestE. rewrite fexp64_FLT. fold b. rewrite Hb. intros [R1 [R2 _]].
  rewrite R2. split; [exact F|]. destruct (rounded k _ _ _ _ D V R1) as [X Y]. split; [exact X|]. split; [exact Y|].
  assert (Tn := tiny_le (e + a) ltac:(lia)). replace (e + (a + 1))%Z with (e + a + 1)%Z by ring. rewrite (bpow_plus _ (e + a) 1). change (bpow radix2 1) with 2. lra.
Qed.
End Ops.
