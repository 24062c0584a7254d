(** Rounding errors of the time step (C88): the magnitudes that bound them, and closeness of a state
    of doubles to a state of exact numbers. *)
From Coq Require Import ZArith Reals Bool.
From Flocq Require Import Core.Core IEEE754.BinarySingleNaN.
From Verif Require Import Scalar Float SpecStep.
Local Open Scope R_scope.

(** the smallest normal double and half the distance from 1 to the next *)
Definition tiny : R := bpow radix2 (-1022).
Definition unit_error : R := bpow radix2 (-53).

(** magnitudes: sums and differences add, products and quotients are those of the magnitudes; an
    operation adds [tiny] for what underflow may lose.  The step uses only the four operations;
    the others are filled in from the exact numbers. *)
Definition Magnitude : Num := {|
  T := R;
  nadd := fun a b => a + b + tiny; nsub := fun a b => a + b + tiny;
  nmul := fun a b => a * b + tiny; ndiv := fun a b => a / b + tiny; nopp := fun a => a;
  nabs := Rabs; nsqrt := sqrt; nexp := exp; nsin := sin; ncos := cos; npi := PI;
  npow := fun x n => pow x (Z.to_nat n);
  neqb := Reqb; nltb := Rltb;
  nofZ := IZR; nofQ := fun n d => (IZR n / IZR d)%R;
  nround := fun x => cast_i32 (Rround x);
  nfloor := fun x => cast_i32 (Zfloor x);
  nceil := fun x => cast_i32 (Zceil x)
|}.

Section Images.
Context {N : Num} {M : Num} (f : @T N -> @T M).
(** a medium and a state of one arithmetic, read in another *)
Definition image_med (x : @medium N) : @medium M :=
  Medium (fun i j => f (mCa x i j)) (fun i j => f (mCb x i j)) (fun i j => f (mDa x i j)) (fun i j => f (mDb x i j))
    (fun i => f (sEx x i)) (fun i => f (sEy x i)) (fun i => f (sHx x i)) (fun i => f (sHy x i))
    (fun i => f (bEx x i)) (fun i => f (cEx x i)) (fun i => f (bEy x i)) (fun i => f (cEy x i))
    (fun i => f (bHx x i)) (fun i => f (cHx x i)) (fun i => f (bHy x i)) (fun i => f (cHy x i)).
Definition image_e (x : @emag N) : @emag M :=
  Emag (fun i j => f (eE x i j)) (fun i j => f (eXl x i j)) (fun i j => f (eXh x i j)) (fun i j => f (eYl x i j)) (fun i j => f (eYh x i j)).
Definition image_h (x : @hmag N) : @hmag M :=
  Hmag (fun i j => f (hX x i j)) (fun i j => f (hXl x i j)) (fun i j => f (hXh x i j))
       (fun i j => f (hY x i j)) (fun i j => f (hYl x i j)) (fun i j => f (hYh x i j)).
Definition image (u : @emag N * @hmag N) : @emag M * @hmag M := (image_e (fst u), image_h (snd u)).
End Images.

(** the value of a double, and its magnitude *)
Definition value (L : libm) (x : @T (B64 L)) : @T RNum := B2R (x : f64).
Definition size (L : libm) (x : @T (B64 L)) : @T Magnitude := Rabs (B2R (x : f64)).

(** a predicate of every cell of a state *)
Definition every_cell {N : Num} (P : @T N -> Prop) (u : @emag N * @hmag N) : Prop :=
  (forall i j, P (eE (fst u) i j) /\ P (eXl (fst u) i j) /\ P (eXh (fst u) i j) /\ P (eYl (fst u) i j) /\ P (eYh (fst u) i j)) /\
  (forall i j, P (hX (snd u) i j) /\ P (hXl (snd u) i j) /\ P (hXh (snd u) i j) /\ P (hY (snd u) i j) /\ P (hYl (snd u) i j) /\ P (hYh (snd u) i j)).

(** every cell of [u] is finite and differs from that of [v] by at most [r] times that of [m] *)
Definition within_cells (r : R) {L : libm} (u : @emag (B64 L) * @hmag (B64 L)) (v : @emag RNum * @hmag RNum) (m : @emag Magnitude * @hmag Magnitude) : Prop :=
  let ok (x : f64) (y z : R) := is_finite x = true /\ Rabs (B2R x - y) <= r * z in
  (forall i j, ok (eE (fst u) i j) (eE (fst v) i j) (eE (fst m) i j) /\ ok (eXl (fst u) i j) (eXl (fst v) i j) (eXl (fst m) i j) /\
     ok (eXh (fst u) i j) (eXh (fst v) i j) (eXh (fst m) i j) /\ ok (eYl (fst u) i j) (eYl (fst v) i j) (eYl (fst m) i j) /\
     ok (eYh (fst u) i j) (eYh (fst v) i j) (eYh (fst m) i j)) /\
  (forall i j, ok (hX (snd u) i j) (hX (snd v) i j) (hX (snd m) i j) /\ ok (hXl (snd u) i j) (hXl (snd v) i j) (hXl (snd m) i j) /\
     ok (hXh (snd u) i j) (hXh (snd v) i j) (hXh (snd m) i j) /\ ok (hY (snd u) i j) (hY (snd v) i j) (hY (snd m) i j) /\
     ok (hYl (snd u) i j) (hYl (snd v) i j) (hYl (snd m) i j) /\ ok (hYh (snd u) i j) (hYh (snd v) i j) (hYh (snd m) i j)).

(** coefficients of at most 2^a and divisors of at least 2^-a: those of the cells strictly inside an
    n by m grid and of layers th cells thick *)
Definition moderate (a : Z) (c : f64) : Prop := is_finite c = true /\ Rabs (B2R c) <= bpow radix2 a.
Definition divisor (a : Z) (s : f64) : Prop := bpow radix2 (- a) <= Rabs (B2R s).
Definition moderate_med {L : libm} (a n m th : Z) (dx : f64) (x : @medium (B64 L)) : Prop :=
  divisor a dx /\
  (forall i j, (1 <= i < n - 1)%Z -> (1 <= j < m - 1)%Z ->
     moderate a (mCa x i j) /\ moderate a (mCb x i j) /\ moderate a (mDa x i j) /\ moderate a (mDb x i j)) /\
  (forall i, (1 <= i < n - 1)%Z -> divisor a (sEx x i) /\ divisor a (sHx x i)) /\
  (forall j, (1 <= j < m - 1)%Z -> divisor a (sEy x j) /\ divisor a (sHy x j)) /\
  (forall d, (1 <= d <= th)%Z -> moderate a (bEx x d) /\ moderate a (cEx x d) /\ moderate a (bEy x d) /\ moderate a (cEy x d)) /\
  (forall d, (1 <= d < th)%Z -> moderate a (bHx x d) /\ moderate a (cHx x d) /\ moderate a (bHy x d) /\ moderate a (cHy x d)).

(** k steps of the textbook *)
Fixpoint steps {N : Num} (n m th : Z) (dx : T) (md : medium) (k : nat) (u : emag * hmag) : emag * hmag :=
  match k with O => u | Datatypes.S k' => yee_step n m th dx md (steps n m th dx md k' u) end.
