(** Vocabulary for the memory-safety properties. *)
From Coq Require Import ZArith List.
From Verif Require Import Scalar Base VecM GridM GeometryM MaterialM PmlM DftM TfsfM PolarM
  InterpM H5M ClockM MonitorM FieldM SpecGrid.
Import ListNotations.
Local Open Scope Z_scope.

Section Safety.
Context {N : Num}.

(** the smallest grids on which the loops fit: [g_pml] is pml_thickness + 1 *)
Definition big_enough (g : grid) : Prop :=
  0 <= g_pml g /\ g_pml g + 2 <= g_Nx g /\ g_pml g + 2 <= g_Ny g.

(** a source on an existing component whose cells are in the grid; a line source also needs
    two different end cells in one row or column, at most 46340 cells apart (longer ones
    overflow the int squared norm) *)
Definition source_inside (g : grid) (r : source) : Prop :=
  (sr_c r = Ez \/ sr_c r = Hx \/ sr_c r = Hy) /\
  match sr_kind r with
  | SPoint p => exists q, to_grid g p = Ok q /\ in_grid (g_Nx g) (g_Ny g) q
  | SLine s => exists a b, to_grid g (s_a s) = Ok a /\ to_grid g (s_b s) = Ok b /\
      in_grid (g_Nx g) (g_Ny g) a /\ in_grid (g_Nx g) (g_Ny g) b /\ a <> b /\
      (fst a = fst b \/ snd a = snd b) /\
      Z.abs (fst b - fst a) + Z.abs (snd b - snd a) <= 46340
  end.

(** a TFSF box at least one cell away from the lower edges and inside the grid *)
Definition tfsf_inside (g : grid) (q : tfsf) : Prop :=
  (1 <= q_ia q < g_Nx g) /\ (1 <= q_ib q < g_Nx g) /\
  (1 <= q_ja q < g_Ny g) /\ (1 <= q_jb q < g_Ny g).

(** all sources of a field inside the grid *)
Definition sources_inside (p : phys) : Prop :=
  (forall r, In r (ph_srcs p) -> source_inside (ph_grid p) r) /\
  (forall q, ph_tfsf p = Some q -> tfsf_inside (ph_grid p) q).

(** the stop-watches of update() are stopped *)
Definition stopped (s : field) : Prop :=
  ticking (f_clk s) Looping = false /\ ticking (f_clk s) Fourier = false.

End Safety.
