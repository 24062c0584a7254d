(** Magnetic charge on the grid: what flows out of the square of four magnetic cells around an
    edge crossing, per unit area. *)
From Coq Require Import ZArith Reals List.
From Verif Require Import Scalar Base VecM GridM TfsfM FieldM SpecSource SpecMaterial SpecRim SpecMedium.
#[local] Existing Instance RNum.
Local Open Scope Z_scope.

Definition charge (p : phys) (i j : Z) : R :=
  ((Hx_at p (i + 1) j - Hx_at p i j) / g_dx (ph_grid p) + (Hy_at p i (j + 1) - Hy_at p i j) / g_dx (ph_grid p))%R.

(** the square lies outside the absorbing layers and off the outermost cells *)
Definition inner_square (g : grid) (i j : Z) : Prop :=
  g_pml g <= i <= g_Nx g - 2 - g_pml g /\ g_pml g <= j <= g_Ny g - 2 - g_pml g /\
  1 <= i < g_Nx g - 2 /\ 1 <= j < g_Ny g - 2.

(** component c of cell (i, j) is among the cells the source adds to *)
Definition feeds (g : grid) (r : source) (c : comp) (i j : Z) : Prop :=
  sr_c r = c /\ exists L, src_cells g (sr_kind r) L /\ In (i, j) L.

(** a call that puts neither a magnetic source nor the rim of an incident wave's box on one of the
    four cells of the square *)
Definition spares (g : grid) (i j : Z) (c : cmd) : Prop :=
  match c with
  | AddSource r => ~ feeds g r Hx i j /\ ~ feeds g r Hx (i + 1) j /\ ~ feeds g r Hy i j /\ ~ feeds g r Hy i (j + 1)
  | SetTfsf v tp => forall q, mk_tfsf g tp v (g_dt g) = Ok q ->
      off_Hx (Some q) i j /\ off_Hx (Some q) (i + 1) j /\ off_Hy (Some q) i j /\ off_Hy (Some q) i (j + 1)
  | _ => True
  end.

(** for one step it is enough that the sources add nothing there at the time of the step *)
Definition silent_at (t : R) (p : phys) (i j : Z) : Prop :=
  (undriven t (ph_grid p) (ph_srcs p) Hx i j /\ undriven t (ph_grid p) (ph_srcs p) Hx (i + 1) j /\
   undriven t (ph_grid p) (ph_srcs p) Hy i j /\ undriven t (ph_grid p) (ph_srcs p) Hy i (j + 1)) /\
  (off_Hx (ph_tfsf p) i j /\ off_Hx (ph_tfsf p) (i + 1) j /\ off_Hy (ph_tfsf p) i j /\ off_Hy (ph_tfsf p) i (j + 1)).
