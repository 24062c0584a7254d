(** Independent vocabulary for the grid and surface properties (exact reals). *)
From Coq Require Import ZArith Reals List.
From Verif Require Import Scalar Base VecM GridM.
Local Open Scope R_scope.
#[local] Existing Instance RNum.

(** [n] is a nearest integer to [x]; half-way points go away from zero *)
Definition nearest_away (x : R) (n : Z) : Prop :=
  Rabs (x - IZR n) <= / 2 /\ (Rabs (x - IZR n) = / 2 -> Rabs x <= Rabs (IZR n)).

(** a C++ int *)
Definition is_int32 (z : Z) : Prop := (- 2 ^ 31 <= z < 2 ^ 31)%Z.

(** closed boxes *)
Definition in_box (a b p : vec) : Prop :=
  (fst a <= fst p <= fst b) /\ (snd a <= snd p <= snd b).
Definition in_ibox (a b p : ivec) : Prop :=
  (fst a <= fst p <= fst b)%Z /\ (snd a <= snd p <= snd b)%Z.
(** cells of an Nx by Ny grid *)
Definition in_grid (Nx Ny : Z) (p : ivec) : Prop :=
  (0 <= fst p < Nx)%Z /\ (0 <= snd p < Ny)%Z.

(** dot product, and the two-dimensional cross product u x v *)
Definition dot2 (u v : vec) : R := fst u * fst v + snd u * snd v.
Definition cross2 (u v : vec) : R := fst u * snd v - snd u * fst v.

(** end-to-start chain of oriented segments *)
Fixpoint chained (l : list surface) : Prop :=
  match l with
  | s :: ((s' :: _) as l') => s_b s = s_a s' /\ chained l'
  | _ => True
  end.
