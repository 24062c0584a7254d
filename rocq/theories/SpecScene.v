(** A scene and the same scene moved by a whole number of cells. *)
From Coq Require Import ZArith Reals List Bool.
From Verif Require Import Scalar Base VecM GridM GeometryM MaterialM PmlM DftM TfsfM PolarM InterpM H5M ClockM
  MonitorM FieldM SpecGeometry SpecPaint SpecShift.
Import ListNotations.
#[local] Existing Instance RNum.

(** two objects of one shape, orientation and material, the second displaced by v *)
Definition moved_obj (v : vec) (o o' : obj) : Prop :=
  o_geom o' = o_geom o /\ o_theta o' = o_theta o /\ o_mat o' = o_mat o /\ o_pos o' = vadd (o_pos o) v.
(** two sources of one kind and time profile, the second displaced by v *)
Definition moved_src (v : vec) (r r' : source) : Prop :=
  sr_c r' = sr_c r /\ tp_shape (sr_tp r') = tp_shape (sr_tp r) /\
  match sr_kind r, sr_kind r' with
  | SPoint p, SPoint p' => p' = vadd p v
  | SLine s, SLine s' => s_a s' = vadd (s_a s) v /\ s_b s' = vadd (s_b s) v
  | _, _ => False
  end.
(** where a source begins and ends *)
Definition ends (r : source) : list vec := match sr_kind r with SPoint p => [p] | SLine s => [s_a s; s_b s] end.

(** one call of a program and the same call for the displaced scene *)
Inductive moved_call (v : vec) : cmd -> cmd -> Prop :=
| MObj o o' : shape_ok (o_geom o) -> moved_obj v o o' -> moved_call v (AddObject o) (AddObject o')
| MSrc r r' : (forall p, In p (ends r ++ ends r') -> (0 <= fst p)%R /\ (0 <= snd p)%R) -> moved_src v r r' -> moved_call v (AddSource r) (AddSource r')
| MUpd : moved_call v Update Update.
(** how often a program calls update() *)
Definition updates_in (l : list cmd) : Z := Z.of_nat (length (filter (fun c => match c with Update => true | _ => false end) l)).
(** a displacement of (a, b) cells *)
Definition by_cells (g : grid) (a b : Z) : vec := (g_dx g * IZR a, g_dx g * IZR b)%R.
(** the square of cells within d of (i, j) lies outside the layers, and so does its image on the other grid *)
Definition opens (g g' : grid) (a b d i j : Z) : Prop :=
  forall x y, (Z.abs (x - i) <= d)%Z -> (Z.abs (y - j) <= d)%Z -> open g x y /\ open g' (x + a) (y + b).
