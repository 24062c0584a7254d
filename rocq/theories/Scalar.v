(** Scalar arithmetic of the model.

    The C++ code computes with [double] and [int].  The model is written once over
    the record [Num] of operations on doubles; [int] is [Z].  No law is part of
    the record: a theorem proved for every [Num] holds for IEEE doubles.
    [RNum] is the exact-real instance; [Float.v] has the binary64 instance. *)
From Coq Require Import ZArith Reals Bool.
From Flocq Require Import Core.Raux.

Class Num : Type := mkNum {
  T     : Type;                     (* double *)
  nadd  : T -> T -> T;
  nsub  : T -> T -> T;
  nmul  : T -> T -> T;
  ndiv  : T -> T -> T;
  nopp  : T -> T;
  nabs  : T -> T;                   (* std::abs / cwiseAbs *)
  nsqrt : T -> T;                   (* std::sqrt *)
  nexp  : T -> T;                   (* std::exp *)
  nsin  : T -> T;                   (* std::sin *)
  ncos  : T -> T;                   (* std::cos *)
  npi   : T;                        (* M_PI *)
  npow  : T -> Z -> T;              (* std::pow with an integer exponent *)
  neqb  : T -> T -> bool;           (* == *)
  nltb  : T -> T -> bool;           (* < *)
  nofZ  : Z -> T;                   (* int -> double conversion, integer literals *)
  nofQ  : Z -> Z -> T;              (* decimal literal n/d, e.g. 0.5 = nofQ 1 2 *)
  nround : T -> option Z;           (* (int) round(x); None = the cast is undefined *)
  nfloor : T -> option Z;           (* (int) floor(x) *)
  nceil  : T -> option Z            (* (int) ceil(x) *)
}.

Declare Scope num_scope.
Delimit Scope num_scope with num.
Infix "+" := nadd : num_scope.
Infix "-" := nsub : num_scope.
Infix "*" := nmul : num_scope.
Infix "/" := ndiv : num_scope.
Notation "- x" := (nopp x) : num_scope.
Infix "=?" := neqb : num_scope.
Infix "<?" := nltb : num_scope.
Notation "0" := (nofZ 0) : num_scope.
Notation "1" := (nofZ 1) : num_scope.
Notation "2" := (nofZ 2) : num_scope.
Notation "4" := (nofZ 4) : num_scope.
Notation "8" := (nofZ 8) : num_scope.
Notation half := (nofQ 1 2).

(** The range of a C++ [int] on the platforms the code targets (32 bits). *)
Definition INT_MIN : Z := (-2147483648)%Z.
Definition INT_MAX : Z := 2147483647%Z.
Definition in_i32 (z : Z) : bool := (INT_MIN <=? z)%Z && (z <=? INT_MAX)%Z.
Definition cast_i32 (z : Z) : option Z := if in_i32 z then Some z else None.

(** std::round: nearest integer, halves away from zero. *)
Definition Rround (x : R) : Z :=
  if Rle_dec 0 x then Zfloor (x + / 2) else (- Zfloor (- x + / 2))%Z.

Definition Rleb (x y : R) : bool := if Rle_dec x y then true else false.
Definition Rltb (x y : R) : bool := if Rlt_dec x y then true else false.
Definition Reqb (x y : R) : bool := if Req_EM_T x y then true else false.

(** Exact real arithmetic.  Simplification: no rounding, no overflow, no NaN;
    [x / 0] is whatever [Rinv] gives, so theorems guard their denominators. *)
Definition RNum : Num := {|
  T := R;
  nadd := Rplus; nsub := Rminus; nmul := Rmult; ndiv := Rdiv; nopp := Ropp;
  nabs := Rabs; nsqrt := sqrt; nexp := exp; nsin := sin; ncos := cos; npi := PI;
  npow := fun x n => pow x (Z.to_nat n);
  neqb := Reqb; nltb := Rltb;
  nofZ := IZR; nofQ := fun n d => (IZR n / IZR d)%R;
  nround := fun x => cast_i32 (Rround x);
  nfloor := fun x => cast_i32 (Zfloor x);
  nceil := fun x => cast_i32 (Zceil x)
|}.

Canonical Structure RNum.

(** replace the operations of [RNum] by those on reals, keeping [RNum] folded *)
Ltac rnum :=
  change (@T RNum) with R in *;
  change (@nadd RNum) with Rplus in *;
  change (@nsub RNum) with Rminus in *;
  change (@nmul RNum) with Rmult in *;
  change (@ndiv RNum) with Rdiv in *;
  change (@nopp RNum) with Ropp in *;
  change (@nabs RNum) with Rabs in *;
  change (@nsqrt RNum) with sqrt in *;
  change (@nexp RNum) with exp in *;
  change (@nsin RNum) with sin in *;
  change (@ncos RNum) with cos in *;
  change (@npi RNum) with PI in *;
  change (@neqb RNum) with Reqb in *;
  change (@nltb RNum) with Rltb in *;
  change (@nofZ RNum) with IZR in *;
  change (@npow RNum) with (fun (x : R) (n : Z) => pow x (Z.to_nat n)) in *;
  change (@nofQ RNum) with (fun n d : Z => (IZR n / IZR d)%R) in *;
  change (@nround RNum) with (fun x : R => cast_i32 (Rround x)) in *;
  change (@nfloor RNum) with (fun x : R => cast_i32 (Zfloor x)) in *;
  change (@nceil RNum) with (fun x : R => cast_i32 (Zceil x)) in *;
  cbv beta in *.
Ltac rnumg :=
  change (@T RNum) with R;
  change (@nadd RNum) with Rplus;
  change (@nsub RNum) with Rminus;
  change (@nmul RNum) with Rmult;
  change (@ndiv RNum) with Rdiv;
  change (@nopp RNum) with Ropp;
  change (@nabs RNum) with Rabs;
  change (@nsqrt RNum) with sqrt;
  change (@nexp RNum) with exp;
  change (@nsin RNum) with sin;
  change (@ncos RNum) with cos;
  change (@npi RNum) with PI;
  change (@neqb RNum) with Reqb;
  change (@nltb RNum) with Rltb;
  change (@nofZ RNum) with IZR;
  change (@npow RNum) with (fun (x : R) (n : Z) => pow x (Z.to_nat n));
  change (@nofQ RNum) with (fun n d : Z => (IZR n / IZR d)%R);
  change (@nround RNum) with (fun x : R => cast_i32 (Rround x));
  change (@nfloor RNum) with (fun x : R => cast_i32 (Zfloor x));
  change (@nceil RNum) with (fun x : R => cast_i32 (Zceil x));
  cbv beta.
