(** Library functions and a grid for C23. *)
From Coq Require Import ZArith Reals List String Bool Lia Psatz.
From Flocq Require Import Core.Core IEEE754.BinarySingleNaN.
From Verif Require Import Scalar Base BaseFacts VecM GridM GeometryM MaterialM PmlM DftM TfsfM PolarM InterpM H5M ClockM
  MonitorM FieldM OutFacts PhysFacts WfFacts ReachFacts SpecStep StepFacts YeeFacts TextbookFacts Float FloatFacts
  SpecDouble DoubleFacts SpecRound RoundFacts RoundRun SpecDark DarkCase SpecLoose LooseFacts.
Import ListNotations.
Local Open Scope R_scope.

Lemma mul_one (x : f64) : is_finite x = true -> Rabs (B2R x) <= 2 -> fin (B2R x) (f64_mul x (f64_ofZ 1)).
Proof.
  intros F H. destruct one_val as [O1 O2]. assert (B := big1).
  destruct (mul_ok x (f64_ofZ 1) F O1) as [X Y].
  { rewrite O2, Rmult_1_r. apply Rle_trans with (1 := H). apply Rle_trans with 4; [lra|]. apply Rle_trans with (1 := B). apply bpow_le. lia. }
  split; [exact Y|]. rewrite X, O2, Rmult_1_r. apply rnd_repr, repr_x.
Qed.
(** one more factor *)
Lemma mul_next (x y : f64) v : is_finite x = true -> is_finite y = true -> bpow radix2 (-40) <= B2R x <= 2 ->
  bpow radix2 (-100) <= v <= 16 -> Rabs (B2R y - v) <= / 8 * v ->
  is_finite (f64_mul x y) = true /\ Rabs (B2R (f64_mul x y) - B2R x * v) <= / 4 * (B2R x * v).
Proof.
  intros Fx Fy Hx Hv Hy. assert (P1 := bpow_gt_0 radix2 (-40)). assert (P2 := bpow_gt_0 radix2 (-100)). apply Rabs_le_inv in Hy. assert (B := big1).
  assert (W : 64 <= bpow radix2 1023) by (change 64 with (bpow radix2 6); apply bpow_le; lia).
  assert (Hv1 : 7 / 8 * v <= B2R y <= 9 / 8 * v) by lra.
  assert (Q : B2R x * (7 / 8 * v) <= B2R x * B2R y <= B2R x * (9 / 8 * v)) by (split; apply Rmult_le_compat_l; lra).
  assert (Q2 : B2R x * v <= 2 * 16) by (apply Rmult_le_compat; lra).
  assert (Q3 : bpow radix2 (-140) <= B2R x * v) by (change (-140)%Z with (-40 + -100)%Z; rewrite bpow_plus; apply Rmult_le_compat; lra).
  assert (P3 := bpow_gt_0 radix2 (-140)).
  assert (T : bpow radix2 (-1022) <= / 2 * bpow radix2 (-140)) by (change (/ 2) with (bpow radix2 (-1)); rewrite <- bpow_plus; apply bpow_le; lia).
  destruct (mul_ok x y Fx Fy) as [X Y]; [apply Rabs_le; lra|]. split; [exact Y|]. rewrite X.
  assert (E : Rabs (rnd64 (B2R x * B2R y) - B2R x * B2R y) <= bpow radix2 (-53) * Rabs (B2R x * B2R y)) by (apply rnd64_rel; rewrite Rabs_pos_eq; lra).
  assert (U : bpow radix2 (-53) <= / 16) by (change (/ 16) with (bpow radix2 (-4)); apply bpow_le; lia). assert (U0 := bpow_gt_0 radix2 (-53)).
  rewrite (Rabs_pos_eq (B2R x * B2R y)) in E by lra.
  assert (E' : Rabs (rnd64 (B2R x * B2R y) - B2R x * B2R y) <= / 16 * (9 / 8 * (B2R x * v))).
  { apply Rle_trans with (1 := E). apply Rmult_le_compat; lra. }
  apply Rabs_le_inv in E'. apply Rabs_le. lra.
Qed.
Lemma mul_next8 (x y : f64) v : is_finite x = true -> is_finite y = true -> bpow radix2 (-40) <= B2R x <= 2 ->
  bpow radix2 (-100) <= v <= 16 -> B2R y = v ->
  is_finite (f64_mul x y) = true /\ Rabs (B2R (f64_mul x y) - B2R x * v) <= / 8 * (B2R x * v).
Proof.
  intros Fx Fy Hx Hv Hy. assert (P1 := bpow_gt_0 radix2 (-40)). assert (P2 := bpow_gt_0 radix2 (-100)).
  assert (W : 64 <= bpow radix2 1023) by (change 64 with (bpow radix2 6); apply bpow_le; lia).
  assert (Q2 : B2R x * v <= 2 * 16) by (apply Rmult_le_compat; lra).
  assert (Q3 : bpow radix2 (-140) <= B2R x * v) by (change (-140)%Z with (-40 + -100)%Z; rewrite bpow_plus; apply Rmult_le_compat; lra).
  assert (P3 := bpow_gt_0 radix2 (-140)).
  assert (T : bpow radix2 (-1022) <= bpow radix2 (-140)) by (apply bpow_le; lia).
  destruct (mul_ok x y Fx Fy) as [X Y]; [rewrite Hy; apply Rabs_le; lra|]. split; [exact Y|]. rewrite X, Hy.
  apply Rle_trans with (bpow radix2 (-53) * Rabs (B2R x * v)); [apply rnd64_rel; rewrite Rabs_pos_eq; lra|].
  rewrite Rabs_pos_eq by lra. apply Rmult_le_compat_r; [lra|]. change (/ 8) with (bpow radix2 (-3)). apply bpow_le. lia.
Qed.

Lemma toy_loose : loose_libm toy.
Proof.
  split.
  - intros x _ _. destruct hf_half as [A B]. split; [exact A|]. change (0 <= B2R (f64_div (f64_ofZ 1) (f64_ofZ 2)) <= 1). rewrite B. lra.
  - intros x n F Hn H. assert (P1 := bpow_gt_0 radix2 (-40)).
    assert (B2 : Rabs (B2R x) <= 2) by (apply Rabs_le; lra). destruct (mul_one x F B2) as [M1 M2].
    set (x1 := f64_mul x (f64_ofZ 1)) in *.
    assert (C : n = 1%Z \/ n = 2%Z \/ n = 3%Z) by lia. destruct H as [H|H].
    + destruct (mul_btw 0 0 repr_0 repr_0 ltac:(generalize big1; lra) ltac:(generalize big1; lra) x x1 F M1) as [N1 N2]; [rewrite H; lra|].
      destruct (mul_btw 0 0 repr_0 repr_0 ltac:(generalize big1; lra) ltac:(generalize big1; lra) x (f64_mul x x1) F N1) as [K1 K2]; [rewrite H; lra|].
      destruct C as [C|[C|C]]; subst n; rewrite H.
      * change (Z.to_nat 1) with 1%nat. cbn [pow]. split; [exact M1|]. change (0 * 1 / 2 <= B2R x1 <= 2 * (0 * 1)). lra.
      * change (Z.to_nat 2) with 2%nat. cbn [pow]. split; [exact N1|]. change (0 * (0 * 1) / 2 <= B2R (f64_mul x x1) <= 2 * (0 * (0 * 1))). lra.
      * change (Z.to_nat 3) with 3%nat. cbn [pow]. split; [exact K1|]. change (0 * (0 * (0 * 1)) / 2 <= B2R (f64_mul x (f64_mul x x1)) <= 2 * (0 * (0 * (0 * 1)))). lra.
    + assert (A1 : bpow radix2 (-100) <= B2R x <= 16) by (split; [|lra]; apply Rle_trans with (2 := proj1 H); apply bpow_le; lia).
      destruct (mul_next8 x x1 (B2R x) F M1 H A1 M2) as [N1 N2].
      assert (A2 : bpow radix2 (-100) <= B2R x * B2R x <= 16).
      { split; [|nra]. apply Rle_trans with (bpow radix2 (-40) * bpow radix2 (-40)); [rewrite <- bpow_plus; apply bpow_le; lia|apply Rmult_le_compat; lra]. }
      destruct (mul_next x (f64_mul x x1) (B2R x * B2R x) F N1 H A2 N2) as [K1 K2].
      assert (P : 0 < B2R x) by lra. assert (PP : 0 < B2R x * B2R x) by (apply Rmult_lt_0_compat; lra). assert (PPP : 0 < B2R x * (B2R x * B2R x)) by (apply Rmult_lt_0_compat; lra).
      apply Rabs_le_inv in N2, K2.
      destruct C as [C|[C|C]]; subst n.
      * change (Z.to_nat 1) with 1%nat. cbn [pow]. split; [exact M1|]. change (B2R x * 1 / 2 <= B2R x1 <= 2 * (B2R x * 1)). lra.
      * change (Z.to_nat 2) with 2%nat. cbn [pow]. split; [exact N1|]. rewrite Rmult_1_r. change (B2R x * B2R x / 2 <= B2R (f64_mul x x1) <= 2 * (B2R x * B2R x)). lra.
      * change (Z.to_nat 3) with 3%nat. cbn [pow]. split; [exact K1|]. rewrite Rmult_1_r. change (B2R x * (B2R x * B2R x) / 2 <= B2R (f64_mul x (f64_mul x x1)) <= 2 * (B2R x * (B2R x * B2R x))). lra.
Qed.

#[local] Instance toyNum : Num := B64 toy.
Definition toy_grid_ok : bool :=
  match mk_grid (nofZ 8) (nofZ 8) (nofZ 1) 2 with
  | Ok g => (g_pml g =? 3)%Z && (g_Nx g =? 8)%Z && (g_Ny g =? 8)%Z && match mk_field g "out" with Ok _ => true | _ => false end
  | _ => false end.
Lemma layer_case : exists g s, loose_libm toy /\ handy_resolution (f64_ofZ 1) /\ mk_grid (nofZ 8) (nofZ 8) (nofZ 1) 2 = Ok g /\
  g_pml g = 3%Z /\ apart g /\ reachable g s.
Proof.
  assert (H : toy_grid_ok = true) by (vm_compute; reflexivity). unfold toy_grid_ok in H.
  destruct (mk_grid _ _ _ _) as [g| |] eqn:Eg; [|discriminate..]. apply andb_prop in H. destruct H as [H H4]. apply andb_prop in H. destruct H as [H H3].
  apply andb_prop in H. destruct H as [H1 H2]. apply Z.eqb_eq in H1, H2, H3.
  destruct (mk_field g "out") as [s| |] eqn:Es; [|discriminate..].
  exists g, s. split; [exact toy_loose|]. split.
  { destruct one_val as [A B]. split; [exact A|]. rewrite B. change 1 with (bpow radix2 0). split; apply bpow_le; lia. }
  split; [reflexivity|]. split; [exact H1|]. split; [unfold apart; lia|]. exists "out"%string, s, []. split; [exact Es|reflexivity].
Qed.
