(** Discretised material equations, and the cells they are meant for. *)
From Coq Require Import ZArith Reals String List.
From Verif Require Import Scalar Base VecM GridM GeometryM MaterialM PmlM DftM TfsfM PolarM InterpM MonitorM FieldM SpecStep SpecMedium StepFacts.
Import ListNotations.
Local Open Scope R_scope.
#[local] Existing Instance RNum.

(** f 0 + ... + f (n - 1) *)
Fixpoint rsum (n : nat) (f : nat -> R) : R := match n with O => 0 | S n => rsum n f + f n end.

(** E, E' before and after one step of length dt; J, J' likewise; c the curl of H in between *)
Definition conductor_law (eps sigma dt E E' c : R) : Prop := eps * (E' - E) / dt + sigma * (E' + E) / 2 = c.
Definition ampere (eps dt E E' c J J' : R) : Prop := eps * (E' - E) / dt = c - (J' + J) / 2.
Definition debye_law (deps tau dt E E' J J' : R) : Prop :=
  tau * (J' - J) / dt + (J' + J) / 2 = deps * (E' - E) / dt.
Definition drude_law (omega gamma dt E E' J J' : R) : Prop :=
  (J' - J) / dt + gamma * (J' + J) / 2 = omega ^ 2 * (E' + E) / 2.
(** J'' + 2 gamma J' + omega^2 J = deps omega^2 E' with central differences around the middle
    step; E0, J0 one step earlier *)
Definition resonator_law (omega deps gamma dt E0 E' J0 J J' : R) : Prop :=
  (J' - 2 * J + J0) / dt ^ 2 + 2 * gamma * ((J' - J0) / (2 * dt)) + omega ^ 2 * J
  = deps * omega ^ 2 * ((E' - E0) / (2 * dt)).
(** magnetic field: c is the component of the curl of E *)
Definition faraday (mu dt H H' c : R) : Prop := mu * (H' - H) / dt = - c.

(** cell (i, j) has the coefficients of a simple material and no polarization *)
Definition simple_only (p : phys) (m : simple) (i j : Z) : Prop :=
  made_of p (KSimple m) i j /\ no_strength i j (ph_debye p) /\ no_strength i j (ph_drude p) /\ ph_lorentz p = [].

(** curl of E at a cell outside the PML *)
Definition curl_e_x (p : phys) (i j : Z) : R := (Ez_at p i (j + 1) - Ez_at p i j) / g_dx (ph_grid p).
Definition curl_e_y (p : phys) (i j : Z) : R := - (Ez_at p (i + 1) j - Ez_at p i j) / g_dx (ph_grid p).
Definition Hx_at (p : phys) (i j : Z) : R := tval (fHx (ph_F p)) i j.
Definition Hy_at (p : phys) (i j : Z) : R := tval (fHy (ph_F p)) i j.
