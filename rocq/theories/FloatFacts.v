(** Facts about the binary64 operations used by the grid conversions. *)
From Coq Require Import ZArith Reals Bool Lia Psatz.
From Flocq Require Import Core.Core IEEE754.BinarySingleNaN Relative.
From Verif Require Import Scalar Base BaseFacts Float.
Local Open Scope R_scope.

Notation fexp64 := (SpecFloat.fexp 53 1024).
Notation rnd64 := (round radix2 (FLT_exp (-1074) 53) ZnearestE).

Lemma fexp64_FLT : fexp64 = FLT_exp (-1074) 53.
Proof. reflexivity. Qed.

#[export] Instance valid64 : Valid_exp (FLT_exp (-1074) 53) := FLT_exp_valid (-1074) 53 (prec_gt_0_ := Hprec64).

Lemma gen_ofZ z : (Z.abs z < 2 ^ 53)%Z -> generic_format radix2 (FLT_exp (-1074) 53) (IZR z).
Proof.
  intros H. apply generic_format_FLT. exists (Float radix2 z 0).
  - unfold F2R; simpl. ring.
  - exact H.
  - simpl. lia.
Qed.

Lemma f64_ofZ_correct z : (Z.abs z < 2 ^ 53)%Z -> B2R (f64_ofZ z) = IZR z /\ is_finite (f64_ofZ z) = true.
Proof.
  intros H. unfold f64_ofZ.
  generalize (@binary_normalize_correct 53 1024 Hprec64 Hemax64 mode_NE z 0 false). cbv zeta.
  assert (E : F2R (Float radix2 z 0) = IZR z) by (unfold F2R; simpl; ring).
  rewrite E. change (round_mode mode_NE) with ZnearestE. rewrite fexp64_FLT.
  rewrite (round_generic radix2 (FLT_exp (-1074) 53) ZnearestE (IZR z) (gen_ofZ z H)).
  rewrite Rlt_bool_true.
  - intros [H1 [H2 _]]. auto.
  - rewrite <- abs_IZR. apply Rlt_trans with (bpow radix2 53); [|apply bpow_lt; lia].
    change (bpow radix2 53) with (IZR (2 ^ 53)). apply IZR_lt. exact H.
Qed.

(** rounding a number of normal magnitude *)
Lemma rnd64_rel x : bpow radix2 (-1022) <= Rabs x -> Rabs (rnd64 x - x) <= bpow radix2 (-53) * Rabs x.
Proof.
  intros H.
  replace (bpow radix2 (-53)) with (/ 2 * bpow radix2 (-53 + 1)).
  - apply (relative_error_N_FLT radix2 (-1074) 53 Hprec64 (fun z => negb (Z.even z)) x). exact H.
  - replace (/ 2) with (bpow radix2 (-1)) by reflexivity. rewrite <- bpow_plus. reflexivity.
Qed.

Lemma Rround_imp x n : Rabs (x - IZR n) < / 2 -> Rround x = n.
Proof.
  intros H. apply Rabs_def2 in H. unfold Rround. destruct (Rle_dec 0 x) as [Hx|Hx].
  - apply Zfloor_imp. rewrite plus_IZR. lra.
  - replace (Zfloor (- x + / 2)) with (- n)%Z; [lia|]. symmetry. apply Zfloor_imp.
    rewrite plus_IZR, opp_IZR. lra.
Qed.

Lemma Btrunc_nearbyint m (x : f64) :
  is_finite x = true ->
  Btrunc (@Bnearbyint 53 1024 Hemax64 m x) = round_mode m (B2R x).
Proof.
  intros Hf. apply eq_IZR. rewrite Btrunc_correct by exact Hemax64.
  destruct (@Bnearbyint_correct 53 1024 Hemax64 m x) as [H1 _]. rewrite H1.
  unfold round, F2R, scaled_mantissa, cexp, FIX_exp. simpl.
  rewrite !Rmult_1_r. f_equal. rewrite Ztrunc_IZR. reflexivity.
Qed.
