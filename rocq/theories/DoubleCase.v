(** Concrete grids in double arithmetic (C87). *)
From Coq Require Import ZArith Reals Bool Lia Psatz.
From Flocq Require Import Core.Core IEEE754.BinarySingleNaN.
From Verif Require Import Scalar Base BaseFacts VecM GridM Float FloatFacts SpecGrid GridFacts SpecDouble DoubleFacts.
Local Open Scope R_scope.

(** the double written n/d; n and d are exact *)
Definition frac (n d : Z) : f64 := f64_div (f64_ofZ n) (f64_ofZ d).

Lemma res_int n : (1 <= n < 2 ^ 31)%Z -> resolution64 (f64_ofZ n).
Proof.
  intros H. destruct (f64_ofZ_correct n) as [E F]; [lia|]. split; [exact F|]. rewrite E. split.
  - apply Rle_trans with 1; [change 1 with (bpow radix2 0); apply bpow_le; lia|apply IZR_le; lia].
  - apply Rle_trans with (bpow radix2 31); [|apply bpow_le; lia]. change (bpow radix2 31) with (IZR (2 ^ 31)). apply IZR_le. lia.
Qed.

Section Case.
Variable L : libm.

Lemma square (l rs : f64) pml n : f64_toZ mode_UP (f64_mul l rs) = Some n ->
  exists g : @grid (B64 L), @mk_grid (B64 L) l l rs pml = Ok g /\ g_Nx g = n /\ g_Ny g = n /\
    g_dx g = f64_div (f64_ofZ 1) rs /\ g_Lx g = f64_mul (f64_div (f64_ofZ 1) rs) (f64_ofZ (n - 1)).
Proof.
  intros C. eexists. split.
  - unfold mk_grid. change (@nceil (B64 L) (@nmul (B64 L) l rs)) with (f64_toZ mode_UP (f64_mul l rs)). rewrite C. reflexivity.
  - auto.
Qed.

(** l = 0.07, resolution 100: eight cells, so that the last cell lies at 0.07 itself *)
Lemma seven_case : exists g : @grid (B64 L), resolution64 (f64_ofZ 100) /\ @mk_grid (B64 L) (frac 7 100) (frac 7 100) (f64_ofZ 100) 0 = Ok g /\
  g_Nx g = 8%Z /\ B2R (g_Lx g : f64) = B2R (frac 7 100) /\ @to_grid (B64 L) g (frac 7 100, f64_ofZ 0) = Ok (7, 0)%Z.
Proof.
  destruct (square (frac 7 100) (f64_ofZ 100) 0 8) as (g & E & N1 & _ & D & X); [vm_compute; reflexivity|].
  exists g. split; [apply res_int; lia|]. split; [exact E|]. split; [exact N1|]. rewrite X. split.
  - apply f_equal. apply B2SF_inj. vm_compute. reflexivity.
  - unfold to_grid. cbn [fst snd]. rewrite D.
    change (@nround (B64 L) (@ndiv (B64 L) (frac 7 100) (f64_div (f64_ofZ 1) (f64_ofZ 100))))
      with (f64_toZ mode_NA (f64_div (frac 7 100) (f64_div (f64_ofZ 1) (f64_ofZ 100)))).
    change (@nround (B64 L) (@ndiv (B64 L) (f64_ofZ 0) (f64_div (f64_ofZ 1) (f64_ofZ 100))))
      with (f64_toZ mode_NA (f64_div (f64_ofZ 0) (f64_div (f64_ofZ 1) (f64_ofZ 100)))).
    replace (f64_toZ mode_NA (f64_div (frac 7 100) (f64_div (f64_ofZ 1) (f64_ofZ 100)))) with (Some 7%Z) by (vm_compute; reflexivity).
    replace (f64_toZ mode_NA (f64_div (f64_ofZ 0) (f64_div (f64_ofZ 1) (f64_ofZ 100)))) with (Some 0%Z) by (vm_compute; reflexivity).
    reflexivity.
Qed.

(** l = 8, resolution 1: eight cells, and the point at 8 is outside *)
Lemma eight_case : exists g : @grid (B64 L), resolution64 (f64_ofZ 1) /\ @mk_grid (B64 L) (f64_ofZ 8) (f64_ofZ 8) (f64_ofZ 1) 0 = Ok g /\
  g_Nx g = 8%Z /\ @to_grid (B64 L) g (f64_ofZ 8, f64_ofZ 0) = Ok (8, 0)%Z.
Proof.
  destruct (square (f64_ofZ 8) (f64_ofZ 1) 0 8) as (g & E & N1 & _ & D & X); [vm_compute; reflexivity|].
  exists g. split; [apply res_int; lia|]. split; [exact E|]. split; [exact N1|].
  unfold to_grid. cbn [fst snd]. rewrite D.
  change (@nround (B64 L) (@ndiv (B64 L) (f64_ofZ 8) (f64_div (f64_ofZ 1) (f64_ofZ 1))))
    with (f64_toZ mode_NA (f64_div (f64_ofZ 8) (f64_div (f64_ofZ 1) (f64_ofZ 1)))).
  change (@nround (B64 L) (@ndiv (B64 L) (f64_ofZ 0) (f64_div (f64_ofZ 1) (f64_ofZ 1))))
    with (f64_toZ mode_NA (f64_div (f64_ofZ 0) (f64_div (f64_ofZ 1) (f64_ofZ 1)))).
  replace (f64_toZ mode_NA (f64_div (f64_ofZ 8) (f64_div (f64_ofZ 1) (f64_ofZ 1)))) with (Some 8%Z) by (vm_compute; reflexivity).
  replace (f64_toZ mode_NA (f64_div (f64_ofZ 0) (f64_div (f64_ofZ 1) (f64_ofZ 1)))) with (Some 0%Z) by (vm_compute; reflexivity).
  reflexivity.
Qed.

(** l = 0.1, resolution 10: the exact product of the two doubles exceeds 1, yet there is one cell *)
Lemma tenth_case : exists g : @grid (B64 L), resolution64 (f64_ofZ 10) /\ @mk_grid (B64 L) (frac 1 10) (frac 1 10) (f64_ofZ 10) 0 = Ok g /\
  g_Nx g = 1%Z /\ Zceil (B2R (frac 1 10) * B2R (f64_ofZ 10)) = 2%Z.
Proof.
  destruct (square (frac 1 10) (f64_ofZ 10) 0 1) as (g & E & N1 & _); [vm_compute; reflexivity|].
  exists g. split; [apply res_int; lia|]. split; [exact E|]. split; [exact N1|].
  destruct (f64_ofZ_correct 10) as [-> _]; [lia|].
  assert (S : B2SF (frac 1 10) = SpecFloat.S754_finite false 7205759403792794 (-56)) by (vm_compute; reflexivity).
  rewrite <- SF2R_B2SF, S. unfold SF2R, F2R. simpl Fnum. simpl Fexp.
  replace (bpow radix2 (-56)) with (/ 72057594037927936) by (simpl; lra).
  apply Zceil_imp. simpl. lra.
Qed.

(** three points of the second grid *)
Lemma inside_case : exists g : @grid (B64 L), resolution64 (f64_ofZ 1) /\ @mk_grid (B64 L) (f64_ofZ 8) (f64_ofZ 8) (f64_ofZ 1) 0 = Ok g /\
  is_finite (frac 5 2) = true /\ 0 <= B2R (frac 5 2) <= B2R (g_Lx g : f64) /\ 0 <= B2R (f64_ofZ 7) <= B2R (g_Lx g : f64) /\ 0 < B2R (g_dx g : f64).
Proof.
  destruct (square (f64_ofZ 8) (f64_ofZ 1) 0 8) as (g & E & N1 & _ & D & X); [vm_compute; reflexivity|].
  exists g. split; [apply res_int; lia|]. split; [exact E|]. split; [vm_compute; reflexivity|].
  assert (A : B2R (frac 5 2) = 5 / 2).
  { assert (S : B2SF (frac 5 2) = SpecFloat.S754_finite false 5629499534213120 (-51)) by (vm_compute; reflexivity).
    rewrite <- SF2R_B2SF, S. unfold SF2R, F2R. simpl Fnum. simpl Fexp. simpl. lra. }
  assert (B : B2R (g_Lx g : f64) = 7).
  { rewrite X. assert (S : B2SF (f64_mul (f64_div (f64_ofZ 1) (f64_ofZ 1)) (f64_ofZ (8 - 1))) = B2SF (f64_ofZ 7)) by (vm_compute; reflexivity).
    apply B2SF_inj in S. rewrite S. apply f64_ofZ_correct. lia. }
  assert (C : B2R (g_dx g : f64) = 1).
  { rewrite D. assert (S : B2SF (f64_div (f64_ofZ 1) (f64_ofZ 1)) = B2SF (f64_ofZ 1)) by (vm_compute; reflexivity).
    apply B2SF_inj in S. rewrite S. apply f64_ofZ_correct. lia. }
  destruct (f64_ofZ_correct 7) as [-> _]; [lia|]. rewrite A, B, C. repeat split; lra.
Qed.
Lemma surface_case : exists s, @mk_surface (B64 L) (frac 7 100, f64_ofZ 0) (frac 7 100, frac 5 2) Positive = Ok s.
Proof.
  unfold mk_surface. cbv zeta. cbn [vabs vsub fst snd].
  change (@neqb (B64 L) (@nabs (B64 L) (@nsub (B64 L) (frac 7 100) (frac 7 100))) (@nofZ (B64 L) 0))
    with (Beqb (@Babs 53 1024 (f64_sub (frac 7 100) (frac 7 100))) (f64_ofZ 0)).
  replace (Beqb (@Babs 53 1024 (f64_sub (frac 7 100) (frac 7 100))) (f64_ofZ 0)) with true by (vm_compute; reflexivity).
  cbn [bind]. eauto.
Qed.
End Case.
