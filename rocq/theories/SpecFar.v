(** What a far field looks like: outgoing cylindrical waves, the points of a circle, uniform contents. *)
From Coq Require Import ZArith Reals List Bool String.
From Verif Require Import Scalar Base VecM GridM DftM InterpM MonitorM SpecDft SpecSample SpecStress.
Import ListNotations.
Local Open Scope R_scope.
#[local] Existing Instance RNum.

(** the point at distance r from c in the direction of the unit vector u *)
Definition seen_from (c : R * R) (r : R) (u : R * R) : R * R := plus2 c (scale2 r u).
Definition unit2 (u : R * R) : Prop := dot2 u u = 1.
(** |z|^2 *)
Definition power2 (z : R * R) : R := re_prod z z.
(** in each direction and at each frequency the far field is a fixed complex amplitude times
    exp(i (pi/4 - k r)) / sqrt (8 pi k r) with k = 2 pi f *)
Definition outgoing (freq : list R) (far : R * R -> res (list (R * R))) (c : R * R) : Prop :=
  forall u, unit2 u -> exists A : nat -> R * R, forall r, 0 < r -> exists fl, far (seen_from c r u) = Ok fl /\ List.length fl = List.length freq /\
    forall k f, nth_error freq k = Some f -> nth_error fl k = Some (times2 (far_factor (2 * PI * f) r) (A k)).
(** angle i of n angles from 0 to 2 pi, both included *)
Definition angle_of (n i : nat) : R := 2 * PI * INR i / INR (n - 1).
(** rows of a table of n times w numbers, stored row by row *)
Definition entry_at {A} (w : nat) (l : list A) (i j : nat) : option A := nth_error l (i * w + j).
(** the table has one row per angle: the far field at radius r from c *)
Definition round_table (w : nat) (far : R * R -> res (list (R * R))) (c : R * R) (r : R) (n : nat) (l : list (R * R)) : Prop :=
  List.length l = (n * w)%nat /\ forall i, (i < n)%nat -> exists row, far (on_circle c r (angle_of n i)) = Ok row /\ List.length row = w /\
    forall j, (j < w)%nat -> entry_at w l i j = nth_error row j.
(** n equal samples of E_z = e and of the component of H along the segment = h, at every frequency *)
Definition uniform (d : dft) (n : nat) (key : string) (e h : R * R) : Prop :=
  recorded d n ["Ez"%string; key] /\ forall i k, (i < n)%nat -> (k < List.length (d_freq d))%nat -> cval d "Ez" i k = e /\ cval d key i k = h.
(** at right angles to the segment *)
Definition broadside (a b c pc : R * R) : Prop := dot2 (minus2 pc c) (direction a b) = 0 /\ pc <> c.
