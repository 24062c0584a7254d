(** Reciprocity: what a flash here shows there, a flash there shows here. *)
From Coq Require Import ZArith Reals String List Bool.
From Verif Require Import Scalar Base VecM GridM GeometryM MaterialM PmlM DftM TfsfM PolarM InterpM H5M ClockM MonitorM FieldM
  SpecGrid SpecGeometry SpecPaint SpecTrace SpecMedia SpecEnergy SpecLoss.
Import ListNotations.
Local Open Scope R_scope.
#[local] Existing Instance RNum.

(** the strength of a flash of height one in a cell: what it takes to set Ez there in one step *)
Definition strength (dt : R) (mt : material) : R :=
  match m_kind mt with KSimple m => sm_eps m - sm_conduc m * dt / 2 | _ => 0 end.
Definition plain (mt : material) : Prop := match m_kind mt with KSimple _ => True | _ => False end.
(** Ez is non-zero only in cells of simple material *)
Definition in_plain (g : grid) (mat : Z -> Z -> material) (e : Z -> Z -> R) : Prop :=
  forall i j, in_grid (g_Nx g) (g_Ny g) (i, j) -> e i j <> 0 -> plain (mat i j).
(** Ez of height one in one cell *)
Definition flash_at (c : Z * Z) : Z -> Z -> R := fun i j => if ((i =? fst c) && (j =? snd c))%Z then 1 else 0.
Definition unlit : Z -> Z -> R := fun _ _ => 0.
