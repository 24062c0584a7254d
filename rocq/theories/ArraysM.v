(** The parameter arrays of debye, drude and lorentz materials as the C++ keeps them (include/materials/debye.h:35-37,
    drude.h:35-37, lorentz.h:38-41), before they are read as a list of poles (MaterialM.v).  An Eigen array is a list;
    an operation on arrays of different sizes is undefined (Eigen's assertion, or an overrun when it is compiled out). *)
From Coq Require Import ZArith String List Bool.
From Verif Require Import Scalar Base MaterialM.
Import ListNotations.
Local Open Scope Z_scope.

Section Arrays.
Context {N : Num}.

(** an element-by-element operation on two Eigen arrays, as in src/materials/debye.cpp:33 *)
Definition each2 (f : T -> T -> T) (a b : list T) : res (list T) :=
  if Nat.eqb (length a) (length b) then Ok (map (fun '(x, y) => f x y) (combine a b)) else UB SizeMismatch.

(** the members of class debye, include/materials/debye.h:35-37 *)
Record adebye := ADebye { ad_eps : T; ad_deps : list T; ad_tau : list T }.
(** debye::debye from arrays, src/materials/debye.cpp:9-12: nothing is checked *)
Definition mk_adebye (eps : T) (deps tau : list T) : res adebye := Ok (ADebye eps deps tau).
(** debye::debye from two numbers, src/materials/debye.cpp:14-17 *)
Definition mk_adebye1 (eps deps tau : T) : res adebye := mk_adebye eps [deps] [tau].
(** debye::Npoles, include/materials/debye.h:29 *)
Definition ad_npoles (m : adebye) : Z := Z.of_nat (length (ad_deps m)).
(** debye::beta, src/materials/debye.cpp:32-34 *)
Definition ad_beta (m : adebye) (dt : T) : res (list T) :=
  q <- each2 ndiv (map (fun d => d * dt)%num (ad_deps m)) (ad_tau m) ;;
  each2 ndiv q (map (fun t => 1 + dt / (2 * t))%num (ad_tau m)).
(** debye::kappa, src/materials/debye.cpp:36-38 *)
Definition ad_kappa (m : adebye) (dt : T) : res (list T) :=
  each2 ndiv (map (fun t => 1 - dt / (2 * t))%num (ad_tau m)) (map (fun t => 1 + dt / (2 * t))%num (ad_tau m)).
(** debye::Cb, src/materials/debye.cpp:44-47 *)
Definition ad_Cb (m : adebye) (dt : T) : res T :=
  b <- ad_beta m dt ;; Ok ((2 * dt) / (2 * ad_eps m + nsum b))%num.

(** the members of class drude, include/materials/drude.h:35-37 *)
Record adrude := ADrude { au_eps : T; au_omega : list T; au_gamma : list T }.
(** drude::drude from arrays, src/materials/drude.cpp:9-13: nothing is checked *)
Definition mk_adrude (eps : T) (omega gamma : list T) : res adrude := Ok (ADrude eps omega gamma).
(** drude::drude from two numbers, src/materials/drude.cpp:15-19 *)
Definition mk_adrude1 (eps omega gamma : T) : res adrude := mk_adrude eps [omega] [gamma].
(** drude::Npoles, include/materials/drude.h:29 *)
Definition au_npoles (m : adrude) : Z := Z.of_nat (length (au_omega m)).
(** drude::beta, src/materials/drude.cpp:34-36 *)
Definition au_beta (m : adrude) (dt : T) : res (list T) :=
  each2 ndiv (map (fun w => npow w 2 * dt / 2)%num (au_omega m)) (map (fun g => 1 + g * dt / 2)%num (au_gamma m)).
(** drude::kappa, src/materials/drude.cpp:38-40 *)
Definition au_kappa (m : adrude) (dt : T) : res (list T) :=
  each2 ndiv (map (fun g => 1 - g * dt / 2)%num (au_gamma m)) (map (fun g => 1 + g * dt / 2)%num (au_gamma m)).
(** drude::Ca, src/materials/drude.cpp:42-45 *)
Definition au_Ca (m : adrude) (dt : T) : res T :=
  b <- au_beta m dt ;; Ok ((2 * au_eps m - dt * nsum b) / (2 * au_eps m + dt * nsum b))%num.
(** drude::Cb, src/materials/drude.cpp:47-50 *)
Definition au_Cb (m : adrude) (dt : T) : res T :=
  b <- au_beta m dt ;; Ok ((2 * dt) / (2 * au_eps m + dt * nsum b))%num.

(** the members of class lorentz, include/materials/lorentz.h:38-41 *)
Record alorentz := ALorentz { al_eps : T; al_omega : list T; al_deps : list T; al_gamma : list T }.
(** lorentz::lorentz from arrays, src/materials/lorentz.cpp:9-13: nothing is checked *)
Definition mk_alorentz (eps : T) (omega deps gamma : list T) : res alorentz := Ok (ALorentz eps omega deps gamma).
(** lorentz::lorentz from three numbers, src/materials/lorentz.cpp:15-23 *)
Definition mk_alorentz1 (eps omega deps gamma : T) : res alorentz := mk_alorentz eps [omega] [deps] [gamma].
(** lorentz::Npoles, include/materials/lorentz.h:31 *)
Definition al_npoles (m : alorentz) : Z := Z.of_nat (length (al_omega m)).
(** lorentz::alpha, src/materials/lorentz.cpp:39-41 *)
Definition al_alpha (m : alorentz) (dt : T) : res (list T) :=
  each2 ndiv (map (fun w => 2 - npow w 2 * npow dt 2)%num (al_omega m)) (map (fun g => 1 + g * dt)%num (al_gamma m)).
(** lorentz::beta, src/materials/lorentz.cpp:43-45 *)
Definition al_beta (m : alorentz) (dt : T) : res (list T) :=
  each2 ndiv (map (fun g => g * dt - 1)%num (al_gamma m)) (map (fun g => g * dt + 1)%num (al_gamma m)).
(** lorentz::delta, src/materials/lorentz.cpp:47-49 *)
Definition al_delta (m : alorentz) (dt : T) : res (list T) :=
  p <- each2 nmul (al_deps m) (map (fun w => npow w 2) (al_omega m)) ;;
  each2 ndiv (map (fun x => x * npow dt 2)%num p) (map (fun g => 1 + g * dt)%num (al_gamma m)).
(** lorentz::Ca_prev, src/materials/lorentz.cpp:51-54 *)
Definition al_Ca_prev (m : alorentz) (dt : T) : res T :=
  d <- al_delta m dt ;; Ok ((nsum d / 2) / (2 * al_eps m + nsum d))%num.
(** lorentz::Ca, src/materials/lorentz.cpp:56-59 *)
Definition al_Ca (m : alorentz) (dt : T) : res T :=
  d <- al_delta m dt ;; Ok ((2 * al_eps m) / (2 * al_eps m + nsum d / 2))%num.
(** lorentz::Cb, src/materials/lorentz.cpp:61-64 *)
Definition al_Cb (m : alorentz) (dt : T) : res T :=
  d <- al_delta m dt ;; Ok ((2 * dt) / (2 * al_eps m + nsum d / 2))%num.

(** Eigen's comma initialiser of an array of n entries from two arrays, as in src/materials/creation.cpp:18-20 *)
Definition comma2 (n : Z) (a b : list T) : res (list T) :=
  if n =? Z.of_nat (length a + length b) then Ok (a ++ b) else UB SizeMismatch.
(** drude_lorentz, src/materials/creation.cpp:8-24, on the arrays *)
Definition adrude_lorentz (d : adrude) (l : alorentz) : res alorentz :=
  let n := au_npoles d + al_npoles l in
  omega <- comma2 n (repeat small (length (au_omega d))) (al_omega l) ;;
  deps <- comma2 n (map (fun w => npow w 2 / npow small 2)%num (au_omega d)) (al_deps l) ;;
  gamma <- comma2 n (map (fun g => g / 2)%num (au_gamma d)) (al_gamma l) ;;
  mk_alorentz (au_eps d) omega deps gamma.

End Arrays.
