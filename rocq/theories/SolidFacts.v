(** Coefficients of simple materials in double arithmetic (C42). *)
From Coq Require Import ZArith Reals Lia Psatz.
From Flocq Require Import Core.Core IEEE754.BinarySingleNaN.
From Verif Require Import Scalar Base MaterialM Float FloatFacts SpecDouble DoubleFacts LooseFacts SpecWhole SpecSolid.
Local Open Scope R_scope.

Section Solid.
Variable L : libm.
Variables (dt : f64) (m : @simple (B64 L)).
Hypotheses (Ht : time_step dt) (Hm : solid m).
Notation e := (sm_eps m : f64). Notation c := (sm_conduc m : f64).
Notation x := (f64_div (f64_mul c dt) (f64_mul (f64_ofZ 2) e)).

Lemma loss_rng : btw 0 (bpow radix2 600) x.
Proof.
  destruct Hm as [(E1 & E2) (C1 & C2)]. destruct (f64_ofZ_correct 2) as [T1 T2]; [lia|].
  assert (N1 : btw 0 (bpow radix2 600) (f64_mul c dt)).
  { apply (mul_rng _ _ 0 (bpow radix2 300) 0 (bpow radix2 300)); try lra; try exact Ht; try (split; assumption); try exact repr_0; try (apply repr_b; lia).
    - apply bpow_le. lia.
    - change 600%Z with (300 + 300)%Z. rewrite bpow_plus. lra. }
  assert (N2 : btw 2 (bpow radix2 301) (f64_mul (f64_ofZ 2) e)).
  { apply (mul_rng _ _ 2 2 1 (bpow radix2 300)); try lra; try (split; assumption).
    - change 2 with (bpow radix2 1). apply repr_b. lia.
    - apply repr_b. lia.
    - apply bpow_le. lia.
    - split; [exact T2|lra].
    - change 2 with (bpow radix2 1). rewrite <- bpow_plus. apply bpow_le. lia. }
  assert (K := bpow_gt_0 radix2 600). apply (div_rng _ _ 0 (bpow radix2 600) 2 (bpow radix2 301)); try lra; try assumption; try exact repr_0; try (apply repr_b; lia).
  apply bpow_le. lia.
Qed.

Lemma solid_damped : damped (simple_Ca m dt) (simple_Cb m dt) dt.
Proof.
  destruct loss_rng as (X1 & X2). destruct Hm as [(E1 & E2) (C1 & C2)]. destruct Ht as (F & R1 & R2). assert (B := big1). destruct one_val as [O1 O2].
  assert (K6 : 4 <= bpow radix2 600) by (change 4 with (bpow radix2 2); apply bpow_le; lia).
  assert (K7 : 2 * bpow radix2 600 <= bpow radix2 1000) by (change 2 with (bpow radix2 1); rewrite <- bpow_plus; apply bpow_le; lia).
  assert (K3 : bpow radix2 300 <= bpow radix2 1000) by (apply bpow_le; lia).
  destruct (add_ok (f64_ofZ 1) x O1 X1) as [S1 S2]; [rewrite O2; apply Rabs_le; lra|]. destruct (sub_ok (f64_ofZ 1) x O1 X1) as [D1 D2]; [rewrite O2; apply Rabs_le; lra|].
  rewrite O2 in S2, D2. unfold damped. change (simple_Ca m dt) with (f64_div (f64_sub (f64_ofZ 1) x) (f64_add (f64_ofZ 1) x)).
  change (simple_Cb m dt) with (f64_div (f64_div dt e) (f64_add (f64_ofZ 1) x)).
  set (sm := f64_add (f64_ofZ 1) x) in *. set (df := f64_sub (f64_ofZ 1) x) in *.
  assert (S3 : 1 <= B2R sm) by (rewrite S2; apply round_ge_generic; try typeclasses eauto; [exact repr_1|lra]).
  assert (D3 : - B2R sm <= B2R df <= B2R sm).
  { rewrite D2, S2. split; [rewrite <- (round_NE_opp radix2 (FLT_exp (-1074) 53))|]; apply round_le; try typeclasses eauto; lra. }
  assert (I : 0 < / B2R sm) by (apply Rinv_0_lt_compat; lra). assert (J : B2R sm * / B2R sm = 1) by (apply Rinv_r; lra).
  destruct (div_btw (-1) 1 (repr_opp _ repr_1) repr_1 ltac:(lra) ltac:(lra) df sm D1 ltac:(lra)) as [Q1 Q2]; [unfold Rdiv; nra|].
  assert (M1 : btw 0 (B2R dt) (f64_div dt e)).
  { apply (div_rng _ _ 0 (B2R dt) 1 (bpow radix2 300)); try lra; try (split; assumption); [exact repr_0|apply repr_x|split; [exact F|lra]]. }
  destruct M1 as (M1 & M2).
  destruct (div_btw 0 (B2R dt) repr_0 (repr_x dt) ltac:(lra) ltac:(lra) (f64_div dt e) sm M1 ltac:(lra)) as [U1 U2].
  { unfold Rdiv. split; [apply Rmult_le_pos; lra|]. apply Rle_trans with (B2R (f64_div dt e) * 1); [|lra]. apply Rmult_le_compat_l; [lra|]. nra. }
  auto.
Qed.

(** without conductivity Ca is 1 and Cb the rounded quotient *)
Lemma solid_lossless : B2R c = 0 -> is_finite (simple_Ca m dt : f64) = true /\ B2R (simple_Ca m dt : f64) = 1 /\ B2R (simple_Cb m dt : f64) = rnd64 (B2R dt / B2R e).
Proof.
  intros C0. destruct loss_rng as (X1 & _). destruct Hm as [(E1 & E2) (C1 & C2)]. destruct Ht as (F & R1 & R2). assert (B := big1). destruct one_val as [O1 O2].
  assert (K3 : bpow radix2 300 <= bpow radix2 1000) by (apply bpow_le; lia).
  assert (X0 : B2R x = 0).
  { destruct (f64_ofZ_correct 2) as [T1 T2]; [lia|].
    destruct (mul_btw 0 0 repr_0 repr_0 ltac:(lra) ltac:(lra) c dt C1 F) as [A1 A2]; [rewrite C0; lra|].
    assert (N2 : btw 2 (bpow radix2 301) (f64_mul (f64_ofZ 2) e)).
    { apply (mul_rng _ _ 2 2 1 (bpow radix2 300)); try lra; try (split; assumption).
      - change 2 with (bpow radix2 1). apply repr_b. lia.
      - apply repr_b. lia.
      - apply bpow_le. lia.
      - split; [exact T2|lra].
      - change 2 with (bpow radix2 1). rewrite <- bpow_plus. apply bpow_le. lia. }
    destruct N2 as (N1 & N2). destruct (div_btw 0 0 repr_0 repr_0 ltac:(lra) ltac:(lra) (f64_mul c dt) (f64_mul (f64_ofZ 2) e) A1 ltac:(lra)) as [B1 B2]; [|lra].
    replace (B2R (f64_mul c dt)) with 0 by lra. unfold Rdiv. rewrite Rmult_0_l. lra. }
  destruct (add_ok (f64_ofZ 1) x O1 X1) as [S1 S2]; [rewrite O2, X0; apply Rabs_le; lra|]. destruct (sub_ok (f64_ofZ 1) x O1 X1) as [D1 D2]; [rewrite O2, X0; apply Rabs_le; lra|].
  rewrite O2, X0, Rplus_0_r in S2. rewrite O2, X0, Rminus_0_r in D2. rewrite (rnd_repr _ repr_1) in S2, D2.
  change (simple_Ca m dt) with (f64_div (f64_sub (f64_ofZ 1) x) (f64_add (f64_ofZ 1) x)).
  change (simple_Cb m dt) with (f64_div (f64_div dt e) (f64_add (f64_ofZ 1) x)).
  set (sm := f64_add (f64_ofZ 1) x) in *. set (df := f64_sub (f64_ofZ 1) x) in *.
  assert (V : B2R df / B2R sm = 1) by (rewrite S2, D2; field).
  destruct (div_ok df sm D1 ltac:(lra)) as [Q1 Q2]; [rewrite V; apply Rabs_le; lra|]. split; [exact Q2|]. split; [rewrite Q1, V; exact (rnd_repr _ repr_1)|].
  assert (Q : 0 <= B2R dt / B2R e <= bpow radix2 300).
  { assert (I : 0 < / B2R e <= 1) by (split; [apply Rinv_0_lt_compat; lra|]; rewrite <- Rinv_1; apply Rinv_le; lra). unfold Rdiv. split; [apply Rmult_le_pos; lra|].
    apply Rle_trans with (B2R dt * 1); [apply Rmult_le_compat_l; lra|lra]. }
  destruct (div_ok dt e F ltac:(lra)) as [G1 G2]; [apply Rabs_le; lra|].
  assert (V2 : B2R (f64_div dt e) / B2R sm = B2R (f64_div dt e)) by (rewrite S2; field).
  assert (G3 : 0 <= B2R (f64_div dt e) <= bpow radix2 300) by (rewrite G1; apply rnd_btw; [exact repr_0|apply repr_b; lia|exact Q]).
  destruct (div_ok (f64_div dt e) sm G2 ltac:(lra)) as [H1 H2]; [rewrite V2; apply Rabs_le; lra|]. rewrite H1, V2, <- G1. apply rnd_repr, repr_x.
Qed.
End Solid.
