(** Independent vocabulary for shapes in the plane (exact reals). *)
From Coq Require Import ZArith Reals List.
From Verif Require Import Scalar Base VecM GridM GeometryM MaterialM FieldM SpecGrid.
Import ListNotations.
Local Open Scope R_scope.
#[local] Existing Instance RNum.

(** anticlockwise rotation about the origin *)
Definition rot (a : R) (p : vec) : vec :=
  (cos a * fst p - sin a * snd p, sin a * fst p + cos a * snd p).

(** the point set of a shape in its own frame *)
Definition in_shape (g : geometry) (p : vec) : Prop :=
  match g with
  | Cylinder r => fst p * fst p + snd p * snd p < r * r
  | Ellipse rx ry => (fst p / rx) ^ 2 + (snd p / ry) ^ 2 < 1
  | Block d => Rabs (fst p) <= fst d / 2 /\ Rabs (snd p) <= snd d / 2
  end.

(** the point set of a placed shape: the rotated and shifted image of the shape *)
Definition in_placed (g : geometry) (pos : vec) (theta : R) (p : vec) : Prop :=
  exists q, in_shape g q /\ p = vadd pos (rot theta q).

(** shapes the constructors are meant for *)
Definition shape_ok (g : geometry) : Prop :=
  match g with
  | Cylinder r => 0 <= r
  | Ellipse rx ry => rx <> 0 /\ ry <> 0
  | Block _ => True
  end.

(** calls that change the pose of a dynamic object *)
Inductive pose_op := PMove (d : vec) | PRotate (a : R).
Definition apply_pose (o : obj) (l : list pose_op) : obj :=
  fold_left (fun o p => match p with PMove d => obj_move d o | PRotate a => obj_rotate a o end) l o.
Definition total_shift (l : list pose_op) : vec :=
  fold_right (fun p s => match p with PMove d => vadd d s | PRotate _ => s end) (0, 0) l.
Definition total_turn (l : list pose_op) : R :=
  fold_right (fun p s => match p with PMove _ => s | PRotate a => a + s end) 0 l.
