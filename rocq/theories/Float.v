(** The IEEE binary64 instance of [Num]: C++ double with round-to-nearest-even.
    NaN payloads are not distinguished.  The libm functions exp, sin, cos and pow have no
    specified rounding, so they are arbitrary parameters [L]; sqrt, fabs, round, floor and
    ceil are exact as IEEE/C require. *)
From Coq Require Import ZArith Reals Bool Lia Psatz.
From Flocq Require Import Core.Core IEEE754.BinarySingleNaN Relative.
From Verif Require Import Scalar.
Local Open Scope Z_scope.

Definition f64 : Set := binary_float 53 1024.
Definition Hprec64 : Prec_gt_0 53 := eq_refl.
Definition Hemax64 : Prec_lt_emax 53 1024 := eq_refl.

(** implementations of the library functions *)
Record libm := Libm {
  lm_exp : f64 -> f64; lm_sin : f64 -> f64; lm_cos : f64 -> f64; lm_pow : f64 -> Z -> f64 }.

(** int -> double *)
Definition f64_ofZ (z : Z) : f64 := @binary_normalize 53 1024 Hprec64 Hemax64 mode_NE z 0 false.
Definition f64_div : f64 -> f64 -> f64 := @Bdiv 53 1024 Hprec64 Hemax64 mode_NE.
Definition f64_mul : f64 -> f64 -> f64 := @Bmult 53 1024 Hprec64 Hemax64 mode_NE.
Definition f64_add : f64 -> f64 -> f64 := @Bplus 53 1024 Hprec64 Hemax64 mode_NE.
Definition f64_sub : f64 -> f64 -> f64 := @Bminus 53 1024 Hprec64 Hemax64 mode_NE.
Definition f64_sqrt : f64 -> f64 := @Bsqrt 53 1024 Hprec64 Hemax64 mode_NE.

(** (int) rnd(x) for rnd = round, floor, ceil *)
Definition f64_toZ (m : mode) (x : f64) : option Z :=
  if is_finite x then cast_i32 (Btrunc (@Bnearbyint 53 1024 Hemax64 m x)) else None.

(** M_PI = 3.14159265358979323846 rounded to the nearest double *)
Definition f64_pi : f64 := @binary_normalize 53 1024 Hprec64 Hemax64 mode_NE 7074237752028440 (-51) false.

Definition B64 (L : libm) : Num := {|
  T := f64;
  nadd := f64_add; nsub := f64_sub; nmul := f64_mul; ndiv := f64_div;
  nopp := @Bopp 53 1024; nabs := @Babs 53 1024; nsqrt := f64_sqrt;
  nexp := lm_exp L; nsin := lm_sin L; ncos := lm_cos L; npi := f64_pi; npow := lm_pow L;
  neqb := @Beqb 53 1024; nltb := @Bltb 53 1024;
  nofZ := f64_ofZ; nofQ := fun n d => f64_div (f64_ofZ n) (f64_ofZ d);
  nround := f64_toZ mode_NA; nfloor := f64_toZ mode_DN; nceil := f64_toZ mode_UP
|}.
