(** Where the components live on the grid, and fields that interpolation should reproduce. *)
From Coq Require Import ZArith Reals.
From Verif Require Import Scalar Base VecM InterpM.
Local Open Scope R_scope.
#[local] Existing Instance RNum.

(** cell index i is one of the two nearest to u (the only one if u is an integer) *)
Definition near (u : R) (i : Z) : Prop := Rabs (u - IZR i) < 1.
(** the four cells around (u, v) are cells of the array *)
Definition around (a : tensor) (u v : R) : Prop :=
  (forall i, near u i -> (0 <= i < rows a)%Z) /\ (forall j, near v j -> (0 <= j < cols a)%Z).
Definition fits (a : tensor) : Prop := (rows a <= 2147483647)%Z /\ (cols a <= 2147483647)%Z.

(** staggering of the components in units of the cell size *)
Definition stagger (c : comp) : R * R := match c with Hx => (0, / 2) | Hy => (/ 2, 0) | _ => (0, 0) end.
Definition place (dx : R) (c : comp) (i j : Z) : vec := ((IZR i + fst (stagger c)) * dx, (IZR j + snd (stagger c)) * dx).

(** the cells of a hold the values of the function f of the position *)
Definition samples (dx : R) (c : comp) (a : tensor) (f : R -> R -> R) : Prop :=
  forall i j, (0 <= i < rows a)%Z -> (0 <= j < cols a)%Z -> tval a i j = f (fst (place dx c i j)) (snd (place dx c i j)).
Definition bilin (a b c d : R) (x y : R) : R := a + b * x + c * y + d * (x * y).
