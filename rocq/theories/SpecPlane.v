(** Plane waves on the grid, and the frequency the grid gives them. *)
From Coq Require Import ZArith Reals List Bool.
From Verif Require Import Scalar Base VecM GridM GeometryM MaterialM PmlM DftM TfsfM PolarM InterpM H5M ClockM MonitorM FieldM
  SpecGrid SpecPaint SpecEnergy.
Import ListNotations.
Local Open Scope R_scope.
#[local] Existing Instance RNum.

(** amplitude, phase, wave numbers per cell and frequency per time step *)
Record wave := Wave { w_a : R; w_phi : R; w_kx : R; w_ky : R; w_om : R }.
(** the dispersion relation of Yee's scheme for dt = dx / 2 in a medium of permittivity [eps] *)
Definition dispersion (eps : R) (w : wave) : Prop :=
  eps * (sin (w_om w / 2)) ^ 2 = / 4 * ((sin (w_kx w / 2)) ^ 2 + (sin (w_ky w / 2)) ^ 2).
(** the phase at a place given in cells and a time given in steps *)
Definition phase (w : wave) (x y t : R) : R := w_kx w * x + w_ky w * y - w_om w * t + w_phi w.
(** Ez after [n] steps; Hx and Hy half a cell and half a step further *)
Definition wave_E (w : wave) (n : nat) (i j : Z) : R := w_a w * cos (phase w (IZR i) (IZR j) (INR n)).
Definition wave_Hx (w : wave) (n : nat) (i j : Z) : R :=
  w_a w * (sin (w_ky w / 2) / (2 * sin (w_om w / 2))) * cos (phase w (IZR i) (IZR j + / 2) (INR n + / 2)).
Definition wave_Hy (w : wave) (n : nat) (i j : Z) : R :=
  - w_a w * (sin (w_kx w / 2) / (2 * sin (w_om w / 2))) * cos (phase w (IZR i + / 2) (IZR j) (INR n + / 2)).
(** a rectangle of cells, its edges excluded *)
Record patch := Patch { x0 : Z; x1 : Z; y0 : Z; y1 : Z }.
(** the patch shrunk by [n] cells on each side *)
Definition within (P : patch) (n : nat) (i j : Z) : Prop :=
  (x0 P + Z.of_nat n < i < x1 P - Z.of_nat n /\ y0 P + Z.of_nat n < j < y1 P - Z.of_nat n)%Z.
(** the patch lies between the absorbing layers *)
Definition clear_patch (g : grid) (P : patch) : Prop :=
  (g_pml g <= x0 P /\ x1 P <= g_Nx g - 1 - g_pml g /\ g_pml g <= y0 P /\ y1 P <= g_Ny g - 1 - g_pml g)%Z.
