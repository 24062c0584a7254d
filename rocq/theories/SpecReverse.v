(** Running a film backwards: Ez of one time with the magnetic fields of half a step before it, reversed. *)
From Coq Require Import ZArith Reals List Bool.
From Verif Require Import Scalar Base VecM GridM GeometryM MaterialM PmlM DftM TfsfM PolarM InterpM H5M ClockM MonitorM FieldM
  SpecGrid SpecPaint SpecEnergy.
Import ListNotations.
Local Open Scope Z_scope.
#[local] Existing Instance RNum.

(** the user overwrites the fields of [z]: Ez as in [y], Hx and Hy the negatives of those in [x] *)
Definition turn (x y z : field) : field :=
  poke (Ez_of (f_ph y)) (fun i j => - Hx_of (f_ph x) i j)%R (fun i j => - Hy_of (f_ph x) i j)%R z.

(** [y] shows the film of [a] backwards: Ez as after [k + 1] steps, Hx and Hy the negatives of those after [k] steps *)
Definition shows_back (a : field) (k : nat) (y : field) : Prop :=
  forall x x', run (repeat Update k) a = Fine x -> run (repeat Update (S k)) a = Fine x' ->
  forall i j, Ez_of (f_ph y) i j = Ez_of (f_ph x') i j /\
    Hx_of (f_ph y) i j = (- Hx_of (f_ph x) i j)%R /\ Hy_of (f_ph y) i j = (- Hy_of (f_ph x) i j)%R.
