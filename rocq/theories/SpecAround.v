(** A closed line of four sides around a set of points. *)
From Coq Require Import Reals List Bool.
From Verif Require Import Scalar Base VecM GridM GeometryM SpecGrid SpecGeometry.
Import ListNotations.
Local Open Scope R_scope.
#[local] Existing Instance RNum.

(** how far the line through s lies beyond p, in the direction of the normal of s *)
Definition beyond (s : surface) (p : vec) : R := dot2 (vsub (s_a s) p) (s_normal s).
(** four straight sides, end to start, anticlockwise, normals outwards, every point at least d inside *)
Definition surrounds (S : vec -> Prop) (d : R) (l : list surface) : Prop :=
  exists s1 s2 s3 s4, l = [s1; s2; s3; s4] /\ chained [s1; s2; s3; s4; s1] /\ forall s, In s l ->
    dot2 (s_normal s) (s_normal s) = 1 /\ dot2 (s_tangent s) (s_tangent s) = 1 /\ cross2 (s_normal s) (s_tangent s) = 1 /\
    beyond s (s_b s) = 0 /\ forall p, S p -> d <= beyond s p.
(** the set comes as close as d to every side *)
Definition reaches (S : vec -> Prop) (d : R) (l : list surface) : Prop :=
  forall s, In s l -> forall e, 0 < e -> exists p, S p /\ beyond s p < d + e.
(** the box a b is the smallest one around the set *)
Definition tight (S : vec -> Prop) (a b : vec) : Prop :=
  (forall p, S p -> in_box a b p) /\
  forall e, 0 < e -> (exists p, S p /\ fst p < fst a + e) /\ (exists p, S p /\ fst b - e < fst p) /\
    (exists p, S p /\ snd p < snd a + e) /\ (exists p, S p /\ snd b - e < snd p).
(** proper sizes; turned ellipses only by quarter turns *)
Definition plain_shape (g : geometry) (th : R) : Prop :=
  match g with
  | Cylinder r => 0 < r
  | Ellipse rx ry => rx <> 0 /\ ry <> 0 /\ (sin th = 0 \/ cos th = 0)
  | Block d => 0 <= fst d /\ 0 <= snd d
  end.
