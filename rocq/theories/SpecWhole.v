(** Rounding errors of whole programs (C88): the calls that set up a scene, materials a wave cannot
    grow in, and the state before the first step. *)
From Coq Require Import ZArith Reals List Bool.
From Flocq Require Import Core.Core IEEE754.BinarySingleNaN.
From Verif Require Import Scalar VecM GeometryM MaterialM FieldM Float SpecStep SpecRound.
Local Open Scope R_scope.

(** a resolution between 2^-a and 2^a cells per unit length *)
Definition resolution_within (a : Z) (rs : f64) : Prop := is_finite rs = true /\ bpow radix2 (- a) <= B2R rs <= bpow radix2 a.

(** a relative permittivity of at least 1 and a conductivity that is not negative, both below 2^300 *)
Definition solid {L : libm} (m : @simple (B64 L)) : Prop :=
  (is_finite (sm_eps m : f64) = true /\ 1 <= B2R (sm_eps m : f64) <= bpow radix2 300) /\
  (is_finite (sm_conduc m : f64) = true /\ 0 <= B2R (sm_conduc m : f64) <= bpow radix2 300).

(** calls before the first update: any call except a step, a total-field box or an object of another material *)
Definition scene_cmd {L : libm} (c : @cmd (B64 L)) : Prop :=
  match c with
  | Update | SetTfsf _ _ => False
  | AddObject o => exists m, m_kind (o_mat o) = KSimple m /\ solid m
  | _ => True
  end.

(** every cell of the fields and of the absorbing layer is zero *)
Definition darkness {N : Num} : emag * hmag :=
  let z : cells := fun _ _ => 0%num in (Emag z z z z z, Hmag z z z z z z).
