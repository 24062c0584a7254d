(** Translation: what it means that one state looks at cell (i + a, j + b) like another one at cell
    (i, j).  The two may live on grids of different size and with layers of different thickness. *)
From Coq Require Import ZArith String List Bool.
From Verif Require Import Scalar Base VecM GridM GeometryM MaterialM PmlM DftM TfsfM PolarM InterpM H5M ClockM
  MonitorM FieldM SpecSource SourceFacts SpecCone.
Import ListNotations.
Local Open Scope Z_scope.

Section Shift.
Context {N : Num}.

(** outside the absorbing layers *)
Definition open (g : grid) (i j : Z) : Prop :=
  g_pml g < i < g_Nx g - 1 - g_pml g /\ g_pml g < j < g_Ny g - 1 - g_pml g.
Definition moved_drive (g g' : grid) (srcs srcs' : list source) (i j i' j' : Z) : Prop :=
  forall Ls Ls', Forall2 (fun r L => src_cells g (sr_kind r) L) srcs Ls -> Forall2 (fun r L => src_cells g' (sr_kind r) L) srcs' Ls' ->
  forall t c x, lit t (combine srcs Ls) c i j x = lit t (combine srcs' Ls') c i' j' x.

(** fields, medium, polarization and sources; cells outside the layers have no PML memory *)
Record moved_cell (p q : phys) (i j i' j' : Z) : Prop := MovedCell {
  mv_field : tval (fEz (ph_F p)) i j = tval (fEz (ph_F q)) i' j' /\ tval (fHx (ph_F p)) i j = tval (fHx (ph_F q)) i' j' /\
             tval (fHy (ph_F p)) i j = tval (fHy (ph_F q)) i' j';
  mv_coefs : tval (cCa (ph_C p)) i j = tval (cCa (ph_C q)) i' j' /\ tval (cCb (ph_C p)) i j = tval (cCb (ph_C q)) i' j' /\
             tval (cDa (ph_C p)) i j = tval (cDa (ph_C q)) i' j' /\ tval (cDb (ph_C p)) i j = tval (cDb (ph_C q)) i' j';
  mv_debye : alike_all i j i' j' (ph_debye p) (ph_debye q);
  mv_drude : alike_all i j i' j' (ph_drude p) (ph_drude q);
  mv_lorentz : alike_all i j i' j' (ph_lorentz p) (ph_lorentz q);
  mv_prev : alike_prev i j i' j' (ph_prevE p) (ph_prevE q);
  mv_prev2 : alike_prev i j i' j' (ph_prev2E p) (ph_prev2E q);
  mv_drive : moved_drive (ph_grid p) (ph_grid q) (ph_srcs p) (ph_srcs q) i j i' j' }.

(** every cell within distance d of (i, j) is moved by (a, b), from outside the layers to outside the layers *)
Definition moved_near (a b : Z) (p q : phys) (d i j : Z) : Prop :=
  forall x y, Z.abs (x - i) <= d -> Z.abs (y - j) <= d ->
    open (ph_grid p) x y /\ open (ph_grid q) (x + a) (y + b) /\ moved_cell p q x y (x + a) (y + b).
End Shift.
