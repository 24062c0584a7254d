(** The energy in a rectangle of cells, what flows out through its sides, and the heat in it. *)
From Coq Require Import ZArith Reals String List Bool.
From Verif Require Import Scalar Base VecM GridM GeometryM MaterialM PmlM DftM TfsfM PolarM InterpM H5M ClockM MonitorM FieldM
  SpecGrid SpecGeometry SpecPaint SpecTrace SpecMedium SpecMedia SpecMaterial SpecRim SpecEnergy SpecLoss CellFacts.
Import ListNotations.
Local Open Scope R_scope.
#[local] Existing Instance RNum.

(** f a + ... + f (b - 1), and the same over a rectangle *)
Definition zsum (a b : Z) (f : Z -> R) : R := rsum (Z.to_nat (b - a)) (fun k => f (a + Z.of_nat k)%Z).
Record rect := Rect { ra : Z; rb : Z; rc : Z; rd : Z }.
Definition inside (q : rect) (i j : Z) : Prop := (ra q <= i < rb q)%Z /\ (rc q <= j < rd q)%Z.
Definition over (q : rect) (f : Z -> Z -> R) : R := zsum (ra q) (rb q) (fun i => zsum (rc q) (rd q) (f i)).

(** media with usual parameters, dispersive ones with one pole that does something *)
Definition passive (k : mat_kind) : Prop :=
  match k with
  | KSimple m => 0 < sm_eps m /\ 0 <= sm_conduc m
  | KDebye x => 0 < db_eps x /\ exists d, db_poles x = [d] /\ 0 < dp_tau d /\ 0 < dp_deps d
  | KDrude x => 0 < dr_eps x /\ exists d, dr_poles x = [d] /\ up_omega d <> 0 /\ 0 <= up_gamma d
  | KLorentz _ => False
  end.

(** field and medium energy when [p'] is one time step after [p] *)
Definition kept (g : grid) (mat : Z -> Z -> material) (q : rect) (p p' : phys) : R :=
  g_dx g ^ 2 * over q (fun i j => (eps_map mat i j * Ez_of p' i j ^ 2 + Hx_of p i j * Hx_of p' i j + Hy_of p i j * Hy_of p' i j
                                   + held p' (mat i j) i j) / 2).
(** mean of Ez over the step *)
Definition Ez_mid (p p' : phys) (i j : Z) : R := (Ez_of p i j + Ez_of p' i j) / 2.
(** the Poynting vector E x H = (- Ez Hy, Ez Hx) through the right, left, top and bottom side *)
Definition outflow (g : grid) (q : rect) (p p' : phys) : R :=
  g_dx g * (zsum (rc q) (rd q) (fun j => - Ez_mid p p' (rb q) j * Hy_of p (rb q - 1)%Z j)
            - zsum (rc q) (rd q) (fun j => - Ez_mid p p' (ra q) j * Hy_of p (ra q - 1)%Z j)
            + zsum (ra q) (rb q) (fun i => Ez_mid p p' i (rd q) * Hx_of p i (rd q - 1)%Z)
            - zsum (ra q) (rb q) (fun i => Ez_mid p p' i (rc q) * Hx_of p i (rc q - 1)%Z)).
Definition warming (g : grid) (mat : Z -> Z -> material) (q : rect) (p p' : phys) : R :=
  g_dx g ^ 2 * over q (fun i j => heat p p' (mat i j) i j).

(** the rectangle keeps clear of the absorbing layers *)
Definition clear_rect (g : grid) (q : rect) : Prop :=
  (g_pml g < ra q)%Z /\ (rb q <= g_Nx g - 1 - g_pml g)%Z /\ (g_pml g < rc q)%Z /\ (rd q <= g_Ny g - 1 - g_pml g)%Z /\
  (ra q <= rb q)%Z /\ (rc q <= rd q)%Z.
(** no source and no side of the total-field box acts on the cell during the update from s to s' *)
Record calm (g : grid) (s s' : field) (i j : Z) : Prop := Calm {
  ca_e : step_at g s s' i j;
  ca_x : off_Hx (ph_tfsf (f_ph s)) i j; ca_xs : undriven (ph_t (f_ph s) + g_dt g) g (ph_srcs (f_ph s)) Hx i j;
  ca_y : off_Hy (ph_tfsf (f_ph s)) i j; ca_ys : undriven (ph_t (f_ph s) + g_dt g) g (ph_srcs (f_ph s)) Hy i j }.
