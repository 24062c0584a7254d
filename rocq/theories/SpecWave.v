(** Vocabulary for the wave properties (exact reals): differences of neighbouring cells, bounds on
    the PML memories, the cells of grid.interior(). *)
From Coq Require Import ZArith Reals String List.
From Verif Require Import Scalar Base VecM GridM GeometryM MaterialM PmlM DftM TfsfM PolarM
  InterpM H5M ClockM MonitorM FieldM SpecGrid SpecStep.
Import ListNotations.
Local Open Scope R_scope.
#[local] Existing Instance RNum.

(** a decaying convolution recursion that never amplifies its input *)
Definition absorbing (b c : R) : Prop := 0 < b < 1 /\ -1 < c <= 0 /\ Rabs c <= 1 - b.

(** all recursion coefficients the update uses: electric cells 1..th from the edge, magnetic half
    cells 1..th-1, on both axes *)
Definition all_absorbing (th : Z) (md : medium) : Prop :=
  (forall d, (1 <= d <= th)%Z -> absorbing (bEx md d) (cEx md d) /\ absorbing (bEy md d) (cEy md d)) /\
  (forall d, (1 <= d < th)%Z -> absorbing (bHx md d) (cHx md d) /\ absorbing (bHy md d) (cHy md d)).

(** every difference quotient of neighbouring cells of an n by m grid that enters the curl of H
    or of E is at most M *)
Definition slopes (n m : Z) (dx M : R) (ez hx hy : cells) : Prop :=
  (forall i j, (1 <= i < n)%Z -> (0 <= j < m)%Z ->
     Rabs ((hy i j - hy (i - 1)%Z j) / dx) <= M /\ Rabs ((ez i j - ez (i - 1)%Z j) / dx) <= M) /\
  (forall i j, (0 <= i < n)%Z -> (1 <= j < m)%Z ->
     Rabs ((hx i j - hx i (j - 1)%Z) / dx) <= M /\ Rabs ((ez i j - ez i (j - 1)%Z) / dx) <= M).

(** no PML memory is larger than M *)
Definition memory_within (M : R) (e : emag) (h : hmag) : Prop :=
  forall i j, Rabs (eXl e i j) <= M /\ Rabs (eXh e i j) <= M /\ Rabs (eYl e i j) <= M /\ Rabs (eYh e i j) <= M /\
              Rabs (hXl h i j) <= M /\ Rabs (hXh h i j) <= M /\ Rabs (hYl h i j) <= M /\ Rabs (hYh h i j) <= M.

(** points of the staggered grid that lie in grid.interior(): Ez at whole cells, Hx half a cell
    up, Hy half a cell to the right *)
Definition inner (g : grid) (p : vec) : Prop := in_box (v_a (interior g)) (v_b (interior g)) p.
Definition inner_Ez (g : grid) (i j : Z) : Prop := inner g (g_dx g * IZR i, g_dx g * IZR j).
Definition inner_Hx (g : grid) (i j : Z) : Prop := inner g (g_dx g * IZR i, g_dx g * (IZR j + / 2)).
Definition inner_Hy (g : grid) (i j : Z) : Prop := inner g (g_dx g * (IZR i + / 2), g_dx g * IZR j).

(** everything the update evolves is zero: the three fields, the eight PML memories, the copies of
    Ez of earlier steps and the polarisation currents of every dispersive medium *)
Definition z2 (a : tensor) : Prop := forall i j, tval a i j = 0%R.
Definition z3 (a : tensor3) : Prop := forall i j k, t3val a i j k = 0%R.
Definition zq (q : polar) : Prop := z3 (pl_J q) /\ z3 (pl_pJ q).
Definition zP {M} (P : list (string * (M * polar))) : Prop := forall nm x q, In (nm, (x, q)) P -> zq q.

Definition zo (o : option tensor) : Prop := forall a, o = Some a -> z2 a.
Record dark (p : phys) : Prop := Dark {
  d_E : z2 (fEz (ph_F p)); d_X : z2 (fHx (ph_F p)); d_Y : z2 (fHy (ph_F p));
  d_x1 : z2 (Ezx1 (p_psi (ph_pml p))); d_x2 : z2 (Ezx2 (p_psi (ph_pml p)));
  d_y1 : z2 (Ezy1 (p_psi (ph_pml p))); d_y2 : z2 (Ezy2 (p_psi (ph_pml p)));
  d_hx1 : z2 (Hxy1 (p_psi (ph_pml p))); d_hx2 : z2 (Hxy2 (p_psi (ph_pml p)));
  d_hy1 : z2 (Hyx1 (p_psi (ph_pml p))); d_hy2 : z2 (Hyx2 (p_psi (ph_pml p)));
  d_prev : zo (ph_prevE p); d_prev2 : zo (ph_prev2E p);
  d_debye : zP (ph_debye p); d_drude : zP (ph_drude p); d_lorentz : zP (ph_lorentz p) }.

(** no dispersive media, no TFSF *)
Definition bare (p : phys) : Prop :=
  ph_debye p = [] /\ ph_drude p = [] /\ ph_lorentz p = [] /\ ph_tfsf p = None.
(** the difference quotients of the fields of a state *)
Definition slopes_of (p : phys) (M : R) : Prop :=
  let g := ph_grid p in slopes (g_Nx g) (g_Ny g) (g_dx g) M (tval (fEz (ph_F p))) (tval (fHx (ph_F p))) (tval (fHy (ph_F p))).
