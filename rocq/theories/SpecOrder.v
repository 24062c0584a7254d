(** Programs that differ only in the order in which materials list their poles. *)
From Coq Require Import Reals List Permutation.
From Verif Require Import Scalar Base VecM GridM GeometryM MaterialM PmlM DftM TfsfM PolarM InterpM H5M ClockM MonitorM FieldM.
#[local] Existing Instance RNum.

Inductive reordered : mat_kind -> mat_kind -> Prop :=
| re_same k : reordered k k
| re_debye e l l' : Permutation l l' -> reordered (KDebye (Debye e l)) (KDebye (Debye e l'))
| re_drude e l l' : Permutation l l' -> reordered (KDrude (Drude e l)) (KDrude (Drude e l')).
(** also Lorentz media *)
Inductive reordered_any : mat_kind -> mat_kind -> Prop :=
| ra_some k k' : reordered k k' -> reordered_any k k'
| ra_lorentz e l l' : Permutation l l' -> reordered_any (KLorentz (Lorentz e l)) (KLorentz (Lorentz e l')).

Definition obj_but (same : mat_kind -> mat_kind -> Prop) (o o' : obj) : Prop :=
  o_name o' = o_name o /\ o_dyn o' = o_dyn o /\ o_geom o' = o_geom o /\ o_pos o' = o_pos o /\ o_theta o' = o_theta o /\
  m_name (o_mat o') = m_name (o_mat o) /\ same (m_kind (o_mat o)) (m_kind (o_mat o')).
Inductive cmd_but (same : mat_kind -> mat_kind -> Prop) : cmd -> cmd -> Prop :=
| cb_same c : cmd_but same c c
| cb_object o o' : obj_but same o o' -> cmd_but same (AddObject o) (AddObject o').
