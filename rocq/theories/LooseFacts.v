(** The coefficients of the absorbing layer in double arithmetic (C23). *)
From Coq Require Import ZArith Reals List String Bool Lia Psatz.
From Flocq Require Import Core.Core IEEE754.BinarySingleNaN Relative.
Require Import Flocq.Prop.Plus_error.
From Verif Require Import Scalar Base BaseFacts VecM GridM GeometryM MaterialM PmlM DftM TfsfM PolarM InterpM H5M ClockM
  MonitorM FieldM OutFacts PhysFacts WfFacts ReachFacts SpecStep StepFacts YeeFacts TextbookFacts Float FloatFacts
  SpecGrid SpecDouble DoubleFacts SpecRound RoundFacts SpecLoose.
Local Open Scope R_scope.

Notation F64 := (FLT_exp (-1074) 53).
Definition repr (v : R) : Prop := generic_format radix2 F64 v.
(** a finite double between two numbers; a double of a given value *)
Definition btw (lo hi : R) (x : f64) : Prop := is_finite x = true /\ lo <= B2R x <= hi.
Definition fin (v : R) (x : f64) : Prop := is_finite x = true /\ B2R x = v.

Lemma repr_b e : (-1074 <= e)%Z -> repr (bpow radix2 e).
Proof. intros. apply generic_format_bpow. unfold FLT_exp. lia. Qed.
Lemma repr_0 : repr 0. Proof. apply generic_format_0. Qed.
Lemma repr_1 : repr 1. Proof. exact (repr_b 0 ltac:(lia)). Qed.
Lemma repr_opp v : repr v -> repr (- v). Proof. apply generic_format_opp. Qed.
Lemma repr_x (x : f64) : repr (B2R x).
Proof. unfold repr. rewrite <- fexp64_FLT. apply generic_format_B2R. Qed.
Lemma rnd_repr v : repr v -> rnd64 v = v.
Proof. intros. apply round_generic; [typeclasses eauto|exact H]. Qed.
Lemma rnd_btw lo hi v : repr lo -> repr hi -> lo <= v <= hi -> lo <= rnd64 v <= hi.
Proof. intros A B [C D]. split; [apply round_ge_generic|apply round_le_generic]; try typeclasses eauto; assumption. Qed.
Lemma fits2 v : Rabs v <= bpow radix2 1000 -> Rlt_bool (Rabs (rnd64 v)) (bpow radix2 1024) = true.
Proof. intros H. apply fits. apply Rle_trans with (1 := H). apply bpow_le. lia. Qed.

Lemma add_ok (x y : f64) : is_finite x = true -> is_finite y = true -> Rabs (B2R x + B2R y) <= bpow radix2 1000 ->
  fin (rnd64 (B2R x + B2R y)) (f64_add x y).
Proof.
  intros Fx Fy H. unfold f64_add. generalize (@Bplus_correct 53 1024 Hprec64 Hemax64 mode_NE x y Fx Fy).
  change (round_mode mode_NE) with ZnearestE. rewrite fexp64_FLT, fits2 by exact H. intros (A & B & _). split; assumption.
Qed.
Lemma sub_ok (x y : f64) : is_finite x = true -> is_finite y = true -> Rabs (B2R x - B2R y) <= bpow radix2 1000 ->
  fin (rnd64 (B2R x - B2R y)) (f64_sub x y).
Proof.
  intros Fx Fy H. unfold f64_sub. generalize (@Bminus_correct 53 1024 Hprec64 Hemax64 mode_NE x y Fx Fy).
  change (round_mode mode_NE) with ZnearestE. rewrite fexp64_FLT, fits2 by exact H. intros (A & B & _). split; assumption.
Qed.
Lemma big_le lo hi v : lo <= v <= hi -> - bpow radix2 1000 <= lo -> hi <= bpow radix2 1000 -> Rabs v <= bpow radix2 1000.
Proof. intros. apply Rabs_le. lra. Qed.

Section Ops.
Variables (lo hi : R).
Hypotheses (rl : repr lo) (rh : repr hi) (bl : - bpow radix2 1000 <= lo) (bh : hi <= bpow radix2 1000).
Lemma add_btw (x y : f64) : is_finite x = true -> is_finite y = true -> lo <= B2R x + B2R y <= hi -> btw lo hi (f64_add x y).
Proof.
  intros Fx Fy H. destruct (add_ok x y Fx Fy) as [A B]; [apply (big_le lo hi); assumption|].
  split; [exact A|]. rewrite B. apply rnd_btw; assumption.
Qed.
Lemma sub_btw (x y : f64) : is_finite x = true -> is_finite y = true -> lo <= B2R x - B2R y <= hi -> btw lo hi (f64_sub x y).
Proof.
  intros Fx Fy H. destruct (sub_ok x y Fx Fy) as [A B]; [apply (big_le lo hi); assumption|].
  split; [exact A|]. rewrite B. apply rnd_btw; assumption.
Qed.
Lemma mul_btw (x y : f64) : is_finite x = true -> is_finite y = true -> lo <= B2R x * B2R y <= hi -> btw lo hi (f64_mul x y).
Proof.
  intros Fx Fy H. destruct (mul_ok x y Fx Fy) as [A B].
  { apply Rle_trans with (bpow radix2 1000); [apply (big_le lo hi); assumption|apply bpow_le; lia]. }
  split; [exact B|]. rewrite A. apply rnd_btw; assumption.
Qed.
Lemma div_btw (x y : f64) : is_finite x = true -> B2R y <> 0 -> lo <= B2R x / B2R y <= hi -> btw lo hi (f64_div x y).
Proof.
  intros Fx Fy H. destruct (div_ok x y Fx Fy) as [A B]; [apply (big_le lo hi); assumption|].
  split; [exact B|]. rewrite A. apply rnd_btw; assumption.
Qed.
End Ops.

(** products and quotients of positive ranges *)
Lemma mul_rng lo hi l h l' h' (x y : f64) : repr lo -> repr hi -> 0 <= lo -> hi <= bpow radix2 1000 -> 0 <= l -> 0 <= l' ->
  btw l h x -> btw l' h' y -> lo <= l * l' -> h * h' <= hi -> btw lo hi (f64_mul x y).
Proof.
  intros R1 R2 B1 B2 P1 P2 (Fx & X1 & X2) (Fy & Y1 & Y2) A B.
  apply mul_btw; try assumption; [generalize (bpow_ge_0 radix2 1000); lra|].
  assert (l * l' <= B2R x * B2R y) by (apply Rmult_le_compat; lra). assert (B2R x * B2R y <= h * h') by (apply Rmult_le_compat; lra). lra.
Qed.
Lemma div_rng lo hi l h l' h' (x y : f64) : repr lo -> repr hi -> 0 <= lo -> hi <= bpow radix2 1000 -> 0 <= l -> 0 < l' ->
  btw l h x -> btw l' h' y -> lo * h' <= l -> h <= hi * l' -> btw lo hi (f64_div x y).
Proof.
  intros R1 R2 B1 B2 P1 P2 (Fx & X1 & X2) (Fy & Y1 & Y2) A B.
  apply div_btw; try assumption; [generalize (bpow_ge_0 radix2 1000); lra|lra|]. assert (0 < B2R y) by lra. split.
  - apply Rmult_le_reg_r with (B2R y); [lra|]. unfold Rdiv. rewrite Rmult_assoc, Rinv_l, Rmult_1_r by lra.
    apply Rle_trans with (lo * h'); [apply Rmult_le_compat_l; lra|lra].
  - apply Rmult_le_reg_r with (B2R y); [lra|]. unfold Rdiv. rewrite Rmult_assoc, Rinv_l, Rmult_1_r by lra.
    assert (0 <= hi) by (apply Rmult_le_reg_r with l'; lra).
    apply Rle_trans with (hi * l'); [lra|apply Rmult_le_compat_l; lra].
Qed.
Lemma btw_w l h l' h' x : btw l h x -> l' <= l -> h <= h' -> btw l' h' x.
Proof. intros (A & B & C) D E. split; [exact A|lra]. Qed.
Lemma fin_btw v x : fin v x -> btw v v x.
Proof. intros [A B]. split; [exact A|lra]. Qed.

(** whole and half numbers *)
Definition hf (z : Z) : f64 -> Prop := fin (IZR z / 2).
Lemma repr_half z : (Z.abs z < 2 ^ 53)%Z -> repr (IZR z / 2).
Proof.
  intros H. apply generic_format_FLT. exists (Float radix2 z (-1)); [unfold F2R; cbn; lra|exact H|cbn; lia].
Qed.
Lemma hf_of z : (Z.abs z < 2 ^ 50)%Z -> hf (2 * z) (f64_ofZ z).
Proof. intros H. destruct (f64_ofZ_correct z) as [A B]; [lia|]. split; [exact B|]. rewrite A, mult_IZR. lra. Qed.
Lemma hf_half : hf 1 (f64_div (f64_ofZ 1) (f64_ofZ 2)).
Proof.
  destruct (f64_ofZ_correct 1) as [A B]; [lia|]. destruct (f64_ofZ_correct 2) as [C D]; [lia|].
  destruct (div_ok (f64_ofZ 1) (f64_ofZ 2) B) as [E F]; [rewrite C; lra|rewrite A, C|].
  - apply Rabs_le. assert (1 <= bpow radix2 1000) by (change 1 with (bpow radix2 0); apply bpow_le; lia). lra.
  - split; [exact F|]. rewrite E, A, C. apply rnd_repr. apply repr_half. lia.
Qed.
Lemma hf_small z : (Z.abs z <= 2 ^ 45)%Z -> Rabs (IZR z / 2) <= bpow radix2 1000.
Proof.
  intros H. apply Rle_trans with (bpow radix2 45); [|apply bpow_le; lia]. change (bpow radix2 45) with (IZR (2 ^ 45)).
  assert (A : - IZR (2 ^ 45) <= IZR z <= IZR (2 ^ 45)) by (rewrite <- opp_IZR; split; apply IZR_le; lia).
  assert (0 <= IZR (2 ^ 45)) by (apply IZR_le; lia). apply Rabs_le. lra.
Qed.
Lemma hf_add z z' x y : hf z x -> hf z' y -> (Z.abs (z + z') <= 2 ^ 45)%Z -> hf (z + z') (f64_add x y).
Proof.
  intros [A B] [C D] H. assert (E : B2R x + B2R y = IZR (z + z') / 2) by (rewrite B, D, plus_IZR; lra).
  destruct (add_ok x y A C) as [F G]; [rewrite E; now apply hf_small|]. split; [exact F|]. rewrite G, E. apply rnd_repr, repr_half. lia.
Qed.
Lemma hf_sub z z' x y : hf z x -> hf z' y -> (Z.abs (z - z') <= 2 ^ 45)%Z -> hf (z - z') (f64_sub x y).
Proof.
  intros [A B] [C D] H. assert (E : B2R x - B2R y = IZR (z - z') / 2) by (rewrite B, D, minus_IZR; lra).
  destruct (sub_ok x y A C) as [F G]; [rewrite E; now apply hf_small|]. split; [exact F|]. rewrite G, E. apply rnd_repr, repr_half. lia.
Qed.

Section Layer.
Variables (L : libm) (th : Z) (dx dt : f64).
Hypotheses (HL : loose_libm L) (Hth : (2 <= th < 2 ^ 31)%Z).
Hypotheses (Hdx : btw (bpow radix2 (-300)) (bpow radix2 300) dx) (Hdt : btw (bpow radix2 (-302)) (bpow radix2 300) dt).

Lemma big1 : 4 <= bpow radix2 1000.
Proof. change 4 with (bpow radix2 2). apply bpow_le. lia. Qed.
Lemma th_pos : 1 <= IZR (th - 1) <= bpow radix2 31.
Proof. change (bpow radix2 31) with (IZR (2 ^ 31)). split; apply IZR_le; lia. Qed.
Lemma th_val : fin (IZR (th - 1)) (f64_ofZ (th - 1)).
Proof. destruct (f64_ofZ_correct (th - 1)) as [A B]; [lia|]. split; assumption. Qed.

(** a ratio (z / 2) / (th - 1) *)
Lemma ratio z (x : f64) : hf z x -> (0 <= z <= 2 * th)%Z ->
  is_finite (f64_div x (f64_ofZ (th - 1))) = true /\
  (B2R (f64_div x (f64_ofZ (th - 1))) = 0 /\ z = 0%Z \/ bpow radix2 (-32) <= B2R (f64_div x (f64_ofZ (th - 1))) <= 2 /\ z <> 0%Z) /\
  ((z <= 2 * th - 2)%Z -> B2R (f64_div x (f64_ofZ (th - 1))) <= 1).
Proof.
  intros [Fx Vx] Hz. destruct th_val as [Fq Vq]. assert (Q := th_pos). assert (B := big1).
  assert (V : B2R x / B2R (f64_ofZ (th - 1)) = IZR z / 2 / IZR (th - 1)) by now rewrite Vx, Vq.
  assert (I : 0 < / IZR (th - 1)) by (apply Rinv_0_lt_compat; lra).
  assert (Z2 : 0 <= IZR z <= 2 * IZR th) by (rewrite <- mult_IZR; split; apply IZR_le; lia).
  assert (T2 : IZR th <= 2 * IZR (th - 1)) by (rewrite <- mult_IZR; apply IZR_le; lia).
  assert (U : IZR z / 2 / IZR (th - 1) <= 2).
  { apply Rmult_le_reg_r with (IZR (th - 1)); [lra|]. unfold Rdiv. rewrite Rmult_assoc, Rinv_l by lra. lra. }
  assert (Lo : 0 <= IZR z / 2 / IZR (th - 1)) by (unfold Rdiv; apply Rmult_le_pos; lra).
  destruct (div_btw 0 2 repr_0 (repr_b 1 ltac:(lia)) ltac:(lra) ltac:(lra) x (f64_ofZ (th - 1)) Fx) as [F R]; [lra|lra|].
  split; [exact F|]. split.
  - destruct (Z.eq_dec z 0) as [->|Hn].
    + left. split; [|reflexivity]. destruct (div_btw 0 0 repr_0 repr_0 ltac:(lra) ltac:(lra) x (f64_ofZ (th - 1)) Fx) as [_ R']; [lra| |lra].
      rewrite V. unfold Rdiv. lra.
    + right. split; [|exact Hn]. split; [|lra].
      destruct (div_btw (bpow radix2 (-32)) 2 (repr_b (-32) ltac:(lia)) (repr_b 1 ltac:(lia)) ltac:(generalize (bpow_ge_0 radix2 (-32)); lra) ltac:(lra) x (f64_ofZ (th - 1)) Fx) as [_ R']; [lra| |lra].
      rewrite V. split; [|exact U]. apply Rmult_le_reg_r with (IZR (th - 1)); [lra|].
      replace (IZR z / 2 / IZR (th - 1) * IZR (th - 1)) with (IZR z / 2) by (field; lra).
      assert (1 <= IZR z) by (apply IZR_le; lia).
      apply Rle_trans with (bpow radix2 (-32) * bpow radix2 31); [apply Rmult_le_compat_l; [apply bpow_ge_0|lra]|].
      rewrite <- bpow_plus. change (bpow radix2 (-32 + 31)) with (/ 2). lra.
  - intros Hz2. destruct (div_btw 0 1 repr_0 repr_1 ltac:(lra) ltac:(lra) x (f64_ofZ (th - 1)) Fx) as [_ R']; [lra| |lra].
    rewrite V. split; [exact Lo|]. apply Rmult_le_reg_r with (IZR (th - 1)); [lra|].
    replace (IZR z / 2 / IZR (th - 1) * IZR (th - 1)) with (IZR z / 2) by (field; lra).
    assert (IZR z <= 2 * IZR (th - 1)) by (rewrite <- mult_IZR; apply IZR_le; lia). lra.
Qed.

(** a power of such a ratio *)
Lemma pow_rng (x : f64) n : is_finite x = true -> (1 <= n <= 3)%Z -> B2R x = 0 \/ bpow radix2 (-32) <= B2R x <= 2 ->
  is_finite (lm_pow L x n) = true /\ 0 <= B2R (lm_pow L x n) /\ (B2R x <= 1 -> B2R (lm_pow L x n) <= 2) /\
  (B2R x <> 0 -> bpow radix2 (-97) <= B2R (lm_pow L x n)).
Proof.
  intros F Hn H. destruct (proj2 HL x n F Hn) as [F' [A B]].
  { destruct H as [H|H]; [left; exact H|right]. split; [|lra]. apply Rle_trans with (bpow radix2 (-32)); [apply bpow_le; lia|lra]. }
  assert (P32 := bpow_gt_0 radix2 (-32)). assert (P : 0 <= B2R x) by lra. assert (K := pow_le (B2R x) (Z.to_nat n) P).
  split; [exact F'|]. split; [lra|]. split.
  - intros H1. assert (B2R x ^ Z.to_nat n <= 1) by (rewrite <- (pow1 (Z.to_nat n)); apply pow_incr; lra). lra.
  - intros H0. destruct H as [H|H]; [lra|].
    assert (G : bpow radix2 (-32) ^ Z.to_nat n <= B2R x ^ Z.to_nat n) by (apply pow_incr; lra).
    assert (G' : bpow radix2 (-96) <= bpow radix2 (-32) ^ Z.to_nat n).
    { assert (C : n = 1%Z \/ n = 2%Z \/ n = 3%Z) by lia. destruct C as [C|[C|C]]; rewrite C.
      - change (Z.to_nat 1) with 1%nat. cbn [pow]. rewrite Rmult_1_r. apply bpow_le. lia.
      - change (Z.to_nat 2) with 2%nat. cbn [pow]. rewrite Rmult_1_r, <- bpow_plus. apply bpow_le. lia.
      - change (Z.to_nat 3) with 3%nat. cbn [pow]. rewrite Rmult_1_r, <- !bpow_plus. apply bpow_le. lia. }
    replace (bpow radix2 (-97)) with (bpow radix2 (-96) / 2); [lra|]. change (-97)%Z with (-96 + -1)%Z. rewrite bpow_plus. change (bpow radix2 (-1)) with (/ 2). reflexivity.
Qed.

Lemma one_val : fin 1 (f64_ofZ 1).
Proof. destruct (f64_ofZ_correct 1) as [A B]; [lia|]. split; assumption. Qed.

(** the grading at a distance of z / 2 cells from the outer edge *)
Section At.
Variables (z : Z) (t : f64).
Hypotheses (Ht : hf z t) (Hz : (1 <= z <= 2 * th)%Z).
Local Notation dep := (@depth (B64 L) th t).
Local Notation kap := (@kappa (B64 L) th t).
Local Notation sig := (@sigma (B64 L) th dx t).
Local Notation alp := (@alpha (B64 L) th t).

Lemma dep_rng : is_finite (dep : f64) = true /\
  (B2R (dep : f64) = 0 /\ z = (2 * th)%Z \/ bpow radix2 (-32) <= B2R (dep : f64) <= 2 /\ z <> (2 * th)%Z) /\ ((2 <= z)%Z -> B2R (dep : f64) <= 1).
Proof.
  assert (H : hf (2 * th - z) (f64_sub (f64_ofZ th) t)) by (apply hf_sub; [apply hf_of; lia|exact Ht|lia]).
  destruct (ratio _ _ H ltac:(lia)) as (A & B & C). split; [exact A|]. split; [|intros; apply C; lia].
  destruct B as [[B B']|[B B']]; [left|right]; (split; [exact B|lia]).
Qed.
Lemma dep_pow : is_finite (lm_pow L dep 3) = true /\ 0 <= B2R (lm_pow L dep 3) /\ ((2 <= z)%Z -> B2R (lm_pow L dep 3) <= 2) /\
  (z <> (2 * th)%Z -> bpow radix2 (-97) <= B2R (lm_pow L dep 3)).
Proof.
  destruct dep_rng as (A & B & C). destruct (pow_rng dep 3 A ltac:(lia)) as (D & E & F & G); [tauto|].
  split; [exact D|]. split; [exact E|]. split; [intros H; apply F, C, H|].
  intros H. apply G. destruct B as [B|B]; [lia|]. generalize (bpow_gt_0 radix2 (-32)). lra.
Qed.

Lemma kap_val : fin 1 (kap : f64).
Proof.
  destruct dep_pow as (A & _). destruct one_val as [O1 O2]. assert (B := big1).
  assert (Z0 : fin 0 (f64_sub (f64_ofZ 1) (f64_ofZ 1))).
  { destruct (sub_btw 0 0 repr_0 repr_0 ltac:(lra) ltac:(lra) (f64_ofZ 1) (f64_ofZ 1) O1 O1) as [X Y]; [lra|]. split; [exact X|lra]. }
  destruct Z0 as [Z1 Z2].
  destruct (mul_btw 0 0 repr_0 repr_0 ltac:(lra) ltac:(lra) (f64_sub (f64_ofZ 1) (f64_ofZ 1)) (lm_pow L dep 3) Z1 A) as [M1 M2]; [rewrite Z2; lra|].
  destruct (add_btw 1 1 repr_1 repr_1 ltac:(lra) ltac:(lra) (f64_ofZ 1) (f64_mul (f64_sub (f64_ofZ 1) (f64_ofZ 1)) (lm_pow L dep 3)) O1 M1) as [P1 P2]; [lra|].
  split; [exact P1|]. change (B2R (f64_add (f64_ofZ 1) (f64_mul (f64_sub (f64_ofZ 1) (f64_ofZ 1)) (lm_pow L dep 3))) = 1). lra.
Qed.
(** the stretched cell size is the cell size *)
Lemma kap_dx : fin (B2R dx) (f64_mul kap dx).
Proof.
  destruct kap_val as [A B]. destruct Hdx as (C & D).
  assert (X : bpow radix2 300 <= bpow radix2 1000) by (apply bpow_le; lia). assert (Y := bpow_gt_0 radix2 (-300)).
  destruct (mul_btw (B2R dx) (B2R dx) (repr_x dx) (repr_x dx) ltac:(lra) ltac:(lra) kap dx A C) as [E F]; [rewrite B; lra|]. split; [exact E|lra].
Qed.

Hypothesis Hz2 : (2 <= z)%Z.

Definition smax : f64 := f64_mul (f64_div (f64_mul (f64_div (f64_ofZ 4) (f64_ofZ 5)) (f64_ofZ 4)) dx) (f64_ofZ 1).
Lemma smax_rng : btw (bpow radix2 (-299)) (bpow radix2 302) smax.
Proof.
  destruct (f64_ofZ_correct 4) as [A1 A2]; [lia|]. destruct (f64_ofZ_correct 5) as [B1 B2]; [lia|]. destruct one_val as [O1 O2]. assert (B := big1).
  assert (X1 : btw (/ 2) 1 (f64_div (f64_ofZ 4) (f64_ofZ 5))).
  { apply div_btw; try lra; [exact (repr_b (-1) ltac:(lia))|exact repr_1|exact A2|]. rewrite A1, B1. lra. }
  assert (X2 : btw 2 4 (f64_mul (f64_div (f64_ofZ 4) (f64_ofZ 5)) (f64_ofZ 4))).
  { destruct X1 as [X1 X1']. apply mul_btw; try lra; [exact (repr_b 1 ltac:(lia))|exact (repr_b 2 ltac:(lia))|exact X1|exact A2|]. rewrite A1. lra. }
  assert (X3 : btw (bpow radix2 (-299)) (bpow radix2 302) (f64_div (f64_mul (f64_div (f64_ofZ 4) (f64_ofZ 5)) (f64_ofZ 4)) dx)).
  { apply (div_rng _ _ 2 4 (bpow radix2 (-300)) (bpow radix2 300)); try assumption; try (apply repr_b; lia); try lra.
    - apply bpow_ge_0.
    - apply bpow_le. lia.
    - apply bpow_gt_0.
    - rewrite <- bpow_plus. change (bpow radix2 (-299 + 300)) with 2. lra.
    - rewrite <- bpow_plus. change (bpow radix2 (302 + -300)) with 4. lra. }
  apply (mul_rng _ _ (bpow radix2 (-299)) (bpow radix2 302) 1 1); try assumption; try (apply repr_b; lia); try lra.
  - apply bpow_ge_0.
  - apply bpow_le. lia.
  - apply bpow_ge_0.
  - split; [exact O1|lra].
Qed.
Lemma sig_rng : btw 0 (bpow radix2 303) (sig : f64) /\ (z <> (2 * th)%Z -> bpow radix2 (-400) <= B2R (sig : f64)).
Proof.
  change sig with (f64_mul smax (lm_pow L dep 3)). destruct dep_pow as (A & B & C & D). specialize (C Hz2). assert (S := smax_rng).
  assert (P := bpow_gt_0 radix2 (-299)). assert (U : bpow radix2 302 * 2 = bpow radix2 303) by (change 303%Z with (302 + 1)%Z; rewrite bpow_plus; reflexivity).
  split.
  - apply (mul_rng _ _ (bpow radix2 (-299)) (bpow radix2 302) 0 2); try assumption; try (apply repr_b; lia); try lra; [exact repr_0|apply bpow_le; lia|split; [exact A|lra]].
  - intros H. specialize (D H).
    apply (mul_rng (bpow radix2 (-400)) (bpow radix2 303) (bpow radix2 (-299)) (bpow radix2 302) (bpow radix2 (-97)) 2); try assumption; try (apply repr_b; lia); try lra;
      try apply bpow_ge_0; [apply bpow_le; lia|split; [exact A|lra]|rewrite <- bpow_plus; apply bpow_le; lia].
Qed.
Lemma alp_rng : btw 0 (/ 2) (alp : f64) /\ (z <> 2%Z -> bpow radix2 (-100) <= B2R (alp : f64)).
Proof.
  assert (H : hf (z - 2 * 1) (f64_sub t (f64_ofZ 1))) by (apply hf_sub; [exact Ht|apply hf_of; lia|lia]).
  destruct (ratio _ _ H ltac:(lia)) as (A & B & C). specialize (C ltac:(lia)).
  set (y := f64_div (f64_sub t (f64_ofZ 1)) (f64_ofZ (th - 1))) in *.
  destruct (pow_rng y 1 A ltac:(lia)) as (D & E & F & G); [tauto|]. specialize (F C).
  change alp with (f64_mul (f64_div (f64_ofZ 1) (f64_ofZ 5)) (lm_pow L y 1)).
  destruct one_val as [O1 O2]. destruct (f64_ofZ_correct 5) as [B1 B2]; [lia|]. assert (K := big1).
  assert (X1 : btw (bpow radix2 (-3)) (bpow radix2 (-2)) (f64_div (f64_ofZ 1) (f64_ofZ 5))).
  { change (bpow radix2 (-3)) with (/ 8). change (bpow radix2 (-2)) with (/ 4).
    apply div_btw; try lra; [exact (repr_b (-3) ltac:(lia))|exact (repr_b (-2) ltac:(lia))|exact O1|]. rewrite O2, B1. lra. }
  assert (P := bpow_gt_0 radix2 (-3)). split.
  - apply (mul_rng _ _ (bpow radix2 (-3)) (bpow radix2 (-2)) 0 2); try assumption; try lra; [exact repr_0|exact (repr_b (-1) ltac:(lia))|split; [exact D|lra]|].
    change (bpow radix2 (-2)) with (/ 4). lra.
  - intros Hn. assert (G' : bpow radix2 (-97) <= B2R (lm_pow L y 1)) by (apply G; destruct B as [B|B]; [lia|]; generalize (bpow_gt_0 radix2 (-32)); lra).
    apply (mul_rng (bpow radix2 (-100)) (/ 2) (bpow radix2 (-3)) (bpow radix2 (-2)) (bpow radix2 (-97)) 2); try assumption; try lra;
      try apply bpow_ge_0; [apply repr_b; lia|exact (repr_b (-1) ltac:(lia))|split; [exact D|lra]|rewrite <- bpow_plus; apply bpow_le; lia|].
    change (bpow radix2 (-2)) with (/ 4). lra.
Qed.

Local Notation b := (@cpml_b (B64 L) th dx dt t).
Local Notation c := (@cpml_c (B64 L) th dx dt t).
Lemma b_rng : btw 0 1 (b : f64).
Proof.
  destruct kap_val as [K1 K2]. destruct sig_rng as [(S1 & S2) _]. destruct alp_rng as [(A1 & A2) _]. assert (B := big1).
  assert (W : bpow radix2 303 <= bpow radix2 1000) by (apply bpow_le; lia). assert (W4 : bpow radix2 304 <= bpow radix2 1000) by (apply bpow_le; lia).
  assert (W3 : 1 <= bpow radix2 303) by (change 1 with (bpow radix2 0); apply bpow_le; lia).
  assert (U : bpow radix2 304 = bpow radix2 303 * 2) by (change 304%Z with (303 + 1)%Z; rewrite bpow_plus; reflexivity).
  destruct (div_btw 0 (bpow radix2 303) repr_0 (repr_b 303 ltac:(lia)) ltac:(lra) ltac:(lra) sig kap S1) as [D1 D2]; [rewrite K2; lra|rewrite K2; unfold Rdiv; rewrite Rinv_1; lra|].
  destruct (add_btw 0 (bpow radix2 304) repr_0 (repr_b 304 ltac:(lia)) ltac:(lra) ltac:(lra) (f64_div sig kap) alp D1 A1) as [E1 E2]; [lra|].
  set (q := f64_add (f64_div sig kap) alp) in *.
  destruct Hdt as (T1 & T2). assert (T0 := bpow_gt_0 radix2 (-302)).
  assert (N1 : is_finite (@Bopp 53 1024 dt) = true) by (rewrite is_finite_Bopp; exact T1).
  assert (V : B2R (@Bopp 53 1024 dt) * B2R q = - (B2R dt * B2R q)) by (rewrite B2R_Bopp; ring).
  assert (P : 0 <= B2R dt * B2R q <= bpow radix2 604).
  { split; [apply Rmult_le_pos; lra|]. change 604%Z with (300 + 304)%Z. rewrite bpow_plus. apply Rmult_le_compat; lra. }
  assert (W6 : bpow radix2 604 <= bpow radix2 1000) by (apply bpow_le; lia).
  destruct (mul_btw (- bpow radix2 604) 0 (repr_opp _ (repr_b 604 ltac:(lia))) repr_0 ltac:(lra) ltac:(lra) (@Bopp 53 1024 dt) q N1 E1) as [M1 M2]; [lra|].
  apply (proj1 HL); [exact M1|exact (proj2 M2)].
Qed.
Lemma den_rng : let den := f64_add (f64_mul sig kap) (f64_mul (lm_pow L kap 2) alp) in
  is_finite den = true /\ B2R (sig : f64) <= B2R den /\ 0 < B2R den.
Proof.
  cbv zeta. destruct kap_val as [K1 K2]. destruct sig_rng as [(S1 & S2) S3]. destruct alp_rng as [(A1 & A2) A3]. assert (B := big1).
  destruct (proj2 HL kap 2%Z K1 ltac:(lia)) as (P1 & P2).
  { right. rewrite K2. split; [|lra]. change 1 with (bpow radix2 0). apply bpow_le. lia. }
  rewrite K2, pow1 in P2.
  assert (W : bpow radix2 303 <= bpow radix2 1000) by (apply bpow_le; lia). assert (W4 : bpow radix2 304 <= bpow radix2 1000) by (apply bpow_le; lia).
  assert (W3 : 1 <= bpow radix2 303) by (change 1 with (bpow radix2 0); apply bpow_le; lia).
  assert (U : bpow radix2 304 = bpow radix2 303 * 2) by (change 304%Z with (303 + 1)%Z; rewrite bpow_plus; reflexivity).
  destruct (mul_btw (B2R (sig : f64)) (B2R (sig : f64)) (repr_x _) (repr_x _) ltac:(lra) ltac:(lra) sig kap S1 K1) as [M1 M2]; [rewrite K2; lra|].
  assert (Q : btw 0 1 (f64_mul (lm_pow L kap 2) alp) /\ (z <> 2%Z -> bpow radix2 (-101) <= B2R (f64_mul (lm_pow L kap 2) alp))).
  { split.
    - apply (mul_rng _ _ (/ 2) 2 0 (/ 2)); try lra; [exact repr_0|exact repr_1|split; [exact P1|lra]|split; [exact A1|lra]].
    - intros H. specialize (A3 H).
      apply (mul_rng (bpow radix2 (-101)) 1 (/ 2) 2 (bpow radix2 (-100)) (/ 2)); try lra; try apply bpow_ge_0;
        [apply repr_b; lia|exact repr_1|split; [exact P1|lra]|split; [exact A1|lra]|].
      change (/ 2) with (bpow radix2 (-1)). rewrite <- bpow_plus. apply bpow_le. lia. }
  destruct Q as [(Q1 & Q2) Q3].
  assert (X : is_finite (f64_add (f64_mul sig kap) (f64_mul (lm_pow L kap 2) alp)) = true /\
    (forall v, repr v -> 0 <= v -> v <= B2R (f64_mul sig kap) + B2R (f64_mul (lm_pow L kap 2) alp) ->
       v <= B2R (f64_add (f64_mul sig kap) (f64_mul (lm_pow L kap 2) alp)))).
  { split; [|intros v V1 V0 V2].
    - apply (add_btw 0 (bpow radix2 304) repr_0 (repr_b 304 ltac:(lia)) ltac:(lra) ltac:(lra)); [exact M1|exact Q1|lra].
    - apply (add_btw v (bpow radix2 304) V1 (repr_b 304 ltac:(lia)) ltac:(lra) ltac:(lra)); [exact M1|exact Q1|lra]. }
  destruct X as [X1 X2]. split; [exact X1|]. split; [apply X2; [apply repr_x|lra|lra]|].
  destruct (Z.eq_dec z 2) as [E2|Hn].
  - assert (S4 : z <> (2 * th)%Z) by (rewrite E2; clear - Hth; lia). specialize (S3 S4). assert (P4 := bpow_gt_0 radix2 (-400)). assert (Y := X2 _ (repr_x sig) ltac:(lra) ltac:(lra)). lra.
  - specialize (Q3 Hn). assert (Y := X2 (bpow radix2 (-101)) (repr_b (-101) ltac:(lia)) (bpow_ge_0 _ _) ltac:(lra)). generalize (bpow_gt_0 radix2 (-101)). lra.
Qed.
Lemma damp : damping b c.
Proof.
  destruct b_rng as (B1 & B2). destruct den_rng as (D1 & D2 & D3). destruct sig_rng as [(S1 & S2) _]. destruct one_val as [O1 O2]. assert (B := big1).
  set (den := f64_add (f64_mul sig kap) (f64_mul (lm_pow L kap 2) alp)) in *.
  destruct (div_btw 0 1 repr_0 repr_1 ltac:(lra) ltac:(lra) sig den S1) as [Q1 Q2]; [lra| |].
  { split; [unfold Rdiv; apply Rmult_le_pos; [lra|apply Rlt_le, Rinv_0_lt_compat, D3]|].
    apply Rmult_le_reg_r with (B2R den); [exact D3|]. unfold Rdiv. rewrite Rmult_assoc, Rinv_l by lra. lra. }
  destruct (sub_ok b (f64_ofZ 1) B1 O1) as [M1 M2]; [rewrite O2; apply Rabs_le; lra|]. rewrite O2 in M2.
  assert (M3 : -1 <= rnd64 (B2R (b : f64) - 1) <= 0) by (apply rnd_btw; [apply repr_opp, repr_1|exact repr_0|lra]).
  set (w := f64_sub b (f64_ofZ 1)) in *. rewrite <- M2 in M3.
  change c with (f64_mul (f64_div sig den) w). set (q := f64_div sig den) in *.
  destruct (mul_btw (B2R w) 0 (repr_x w) repr_0 ltac:(lra) ltac:(lra) q w Q1 M1) as [C1 C2].
  { split; [|nra]. nra. }
  unfold damping. split; [exact B1|]. split; [exact C1|]. split; [exact B2|]. split; [lra|].
  rewrite Rabs_left1 by lra. apply Rle_trans with (- B2R w); [lra|]. rewrite M2.
  destruct (@FLT_plus_error_N_ex radix2 (-1074) 53 Hprec64 (fun n => negb (Z.even n)) (B2R (b : f64)) (- (1)) (repr_x b) (repr_opp _ repr_1)) as (eps & E1 & E2).
  change (rnd64 (B2R (b : f64) - 1) = (B2R (b : f64) - 1) * (1 + eps)) in E2. rewrite E2.
  assert (U : Rabs eps <= bpow radix2 (-53)).
  { apply Rle_trans with (1 := E1). unfold u_ro. change (/ 2) with (bpow radix2 (-1)). rewrite <- bpow_plus. change (-1 + (- (53) + 1))%Z with (-53)%Z.
    assert (P := bpow_gt_0 radix2 (-53)). apply Rmult_le_reg_r with (1 + bpow radix2 (-53)); [lra|]. unfold Rdiv. rewrite Rmult_assoc, Rinv_l by lra. clear - P. revert P. generalize (bpow radix2 (-53)). intros u P. nra. }
  apply Rabs_le_inv in U. clear - U B2. revert U B2. generalize (bpow radix2 (-53)) (B2R (b : f64)). intros u v U B2. nra.
Qed.
End At.
End Layer.

(** the grid *)
Section Built.
Variable L : libm.
Hypothesis HL : loose_libm L.
Variables (Lx Ly rs : f64) (pml : Z) (g : @grid (B64 L)).
Hypotheses (Hrs : handy_resolution rs) (Hpml : (1 <= pml)%Z) (Hg : @mk_grid (B64 L) Lx Ly rs pml = Ok g) (Hap : apart g).

Lemma built_dx : btw (bpow radix2 (-300)) (bpow radix2 300) (g_dx g) /\ btw (bpow radix2 (-302)) (bpow radix2 300) (g_dt g).
Proof.
  destruct Hrs as (F & R1 & R2). destruct one_val as [O1 O2]. assert (B := big1). assert (P := bpow_gt_0 radix2 (-300)).
  assert (E : g_dx g = f64_div (f64_ofZ 1) rs /\ g_dt g = f64_div (g_dx g) (f64_ofZ 2)).
  { assert (H := Hg). unfold mk_grid in H. apply bind_ok in H. destruct H as (x & _ & H). apply bind_ok in H. destruct H as (y & _ & H).
    injection H as H. rewrite <- H. split; reflexivity. }
  destruct E as [E1 E2]. rewrite E2.
  assert (D : btw (bpow radix2 (-300)) (bpow radix2 300) (g_dx g)).
  { rewrite E1. apply (div_rng _ _ 1 1 (bpow radix2 (-300)) (bpow radix2 300)); try (apply repr_b; lia); try lra; try (split; [assumption|lra]).
    - apply bpow_le. lia.
    - rewrite <- bpow_plus. change (bpow radix2 (-300 + 300)) with 1. lra.
    - rewrite <- bpow_plus. change (bpow radix2 (300 + -300)) with 1. lra. }
  split; [exact D|]. destruct (f64_ofZ_correct 2) as [A1 A2]; [lia|].
  assert (X := bpow_gt_0 radix2 300). assert (Y := bpow_gt_0 radix2 (-302)).
  assert (W : bpow radix2 300 <= bpow radix2 1000) by (apply bpow_le; lia).
  assert (V : bpow radix2 (-302) * 2 <= bpow radix2 (-300)) by (change 2 with (bpow radix2 1); rewrite <- bpow_plus; apply bpow_le; lia).
  apply (div_rng _ _ (bpow radix2 (-300)) (bpow radix2 300) 2 2); try (apply repr_b; lia); try lra; try exact D. split; [exact A2|lra].
Qed.
Lemma built_th : (2 <= g_pml g < 2 ^ 31)%Z.
Proof.
  destruct Hap as (A & B & C). assert (H := Hg). unfold mk_grid in H. apply bind_ok in H. destruct H as (x & Hx & H). apply bind_ok in H. destruct H as (y & _ & H).
  apply ofOption_ok in Hx. change (@nceil (B64 L)) with (f64_toZ mode_UP) in Hx. apply toZ_some in Hx. destruct Hx as (_ & _ & I).
  injection H as H. rewrite <- H in B |- *. cbn [g_pml g_Nx] in *. unfold is_int32 in I. lia.
Qed.

Lemma usable64 (s : @field (B64 L)) : reachable g s -> usable_layer (g_Nx g) (g_Ny g) (g_pml g) (g_dx g) (med (f_ph s)).
Proof.
  intros Hr. destruct (reachable_coefs g s Hap Hr) as (Kc & Ks & Kx & Ky). destruct built_dx as [Hdx Hdt]. assert (Hth := built_th).
  assert (Hap' := Hap). destruct Hap' as (G0 & G1 & G2).
  assert (W : forall d, (0 <= d < 2 ^ 31)%Z -> hf (2 * d) (@nofZ (B64 L) d)) by (intros d Hd; apply hf_of; lia).
  assert (Wp : forall d, (0 <= d < 2 ^ 31)%Z -> hf (2 * d + 1) (@nadd (B64 L) (nofZ d) half)).
  { intros d Hd. apply hf_add; [apply W; lia|exact hf_half|lia]. }
  assert (Wm : forall d, (0 <= d < 2 ^ 31)%Z -> hf (2 * d - 1) (@nsub (B64 L) (nofZ d) half)).
  { intros d Hd. apply hf_sub; [apply W; lia|exact hf_half|lia]. }
  assert (mid : fin (B2R (g_dx g : f64)) (f64_mul (g_dx g) (f64_ofZ 1))).
  { destruct one_val as [O1 O2]. destruct Hdx as (C & D). assert (X : bpow radix2 300 <= bpow radix2 1000) by (apply bpow_le; lia). assert (Y := bpow_gt_0 radix2 (-300)).
    destruct (mul_btw (B2R (g_dx g : f64)) (B2R (g_dx g : f64)) (repr_x _) (repr_x _) ltac:(lra) ltac:(lra) (g_dx g) (f64_ofZ 1) C O1) as [E F]; [rewrite O2; lra|]. split; [exact E|lra]. }
  refine (conj _ (conj _ (conj _ _))).
  - intros d Hd. destruct (Kc d ltac:(lia)) as ((E1 & E2 & E3 & E4) & _). rewrite E1, E2, E3, E4.
    split; apply (damp L (g_pml g) (g_dx g) (g_dt g) HL Hth Hdx Hdt (2 * d)); try lia; apply W; lia.
  - intros d Hd. destruct (Kc d ltac:(lia)) as (_ & (E1 & E2 & E3 & E4)). rewrite E1, E2, E3, E4.
    split; apply (damp L (g_pml g) (g_dx g) (g_dt g) HL Hth Hdx Hdt (2 * d + 1)); try lia; apply Wp; lia.
  - intros i Hi. destruct (Z_lt_le_dec i (g_pml g)) as [H|H]; [|destruct (Z_lt_le_dec (g_Nx g - 1 - g_pml g) i) as [H'|H']].
    + destruct (Ks i ltac:(lia)) as ((E1 & _) & (F1 & _)). rewrite E1, F1.
      split; [apply (kap_dx L (g_pml g) (g_dx g) HL Hth Hdx (2 * i)); [apply W; lia|lia]|apply (kap_dx L (g_pml g) (g_dx g) HL Hth Hdx (2 * i + 1)); [apply Wp; lia|lia]].
    + destruct (Ks (g_Nx g - 1 - i)%Z ltac:(lia)) as ((_ & _ & E1 & _) & (_ & _ & F1 & _)). replace (g_Nx g - 1 - (g_Nx g - 1 - i))%Z with i in E1, F1 by lia. rewrite E1, F1.
      split; [apply (kap_dx L (g_pml g) (g_dx g) HL Hth Hdx (2 * (g_Nx g - 1 - i))); [apply W; lia|lia]|apply (kap_dx L (g_pml g) (g_dx g) HL Hth Hdx (2 * (g_Nx g - 1 - i) - 1)); [apply Wm; lia|lia]].
    + destruct (Kx i ltac:(lia)) as [E1 F1]. rewrite E1, F1. split; exact mid.
  - intros i Hi. destruct (Z_lt_le_dec i (g_pml g)) as [H|H]; [|destruct (Z_lt_le_dec (g_Ny g - 1 - g_pml g) i) as [H'|H']].
    + destruct (Ks i ltac:(lia)) as ((_ & E1 & _) & (_ & F1 & _)). rewrite E1, F1.
      split; [apply (kap_dx L (g_pml g) (g_dx g) HL Hth Hdx (2 * i)); [apply W; lia|lia]|apply (kap_dx L (g_pml g) (g_dx g) HL Hth Hdx (2 * i + 1)); [apply Wp; lia|lia]].
    + destruct (Ks (g_Ny g - 1 - i)%Z ltac:(lia)) as ((_ & _ & _ & E1) & (_ & _ & _ & F1)). replace (g_Ny g - 1 - (g_Ny g - 1 - i))%Z with i in E1, F1 by lia. rewrite E1, F1.
      split; [apply (kap_dx L (g_pml g) (g_dx g) HL Hth Hdx (2 * (g_Ny g - 1 - i))); [apply W; lia|lia]|apply (kap_dx L (g_pml g) (g_dx g) HL Hth Hdx (2 * (g_Ny g - 1 - i) - 1)); [apply Wm; lia|lia]].
    + destruct (Ky i ltac:(lia)) as [E1 F1]. rewrite E1, F1. split; exact mid.
Qed.
End Built.
