(** Reflection in the middle column (exact reals): what it means that one state is the mirror image
    of another on the same grid.  Ez and Hx of column a go to column n - 1 - a; Hy lives half a cell
    to the right of its column, so column a goes to column n - 2 - a, with a sign. *)
From Coq Require Import ZArith Reals String List Bool.
From Verif Require Import Scalar Base VecM GridM GeometryM MaterialM PmlM DftM TfsfM PolarM InterpM H5M ClockM
  MonitorM FieldM SpecSource SourceFacts SpecCone.
Import ListNotations.
Local Open Scope R_scope.
#[local] Existing Instance RNum.

Definition mirror_field (n : Z) (F G : fields) (a b : Z) : Prop :=
  tval (fEz G) (n - 1 - a)%Z b = tval (fEz F) a b /\ tval (fHx G) (n - 1 - a)%Z b = tval (fHx F) a b /\
  ((a <= n - 2)%Z -> tval (fHy G) (n - 2 - a)%Z b = - tval (fHy F) a b).
(** the permittivity and conductivity the cell was painted with *)
Definition mirror_coefs (n : Z) (C D : coefs) (a b : Z) : Prop :=
  tval (cCa D) (n - 1 - a)%Z b = tval (cCa C) a b /\ tval (cCb D) (n - 1 - a)%Z b = tval (cCb C) a b.
(** the PML memories; d counts cells from the nearer side *)
Definition mirror_memory (n m th : Z) (s r : pml_psi) (a b : Z) : Prop :=
  (((1 <= a <= th)%Z -> tval (Ezx2 r) a b = tval (Ezx1 s) a b) /\
   ((1 <= n - 1 - a <= th)%Z -> tval (Ezx1 r) (n - 1 - a)%Z b = tval (Ezx2 s) (n - 1 - a)%Z b) /\
   ((1 <= b <= th)%Z -> tval (Ezy1 r) (n - 1 - a)%Z b = tval (Ezy1 s) a b) /\
   ((1 <= m - 1 - b <= th)%Z -> tval (Ezy2 r) (n - 1 - a)%Z (m - 1 - b)%Z = tval (Ezy2 s) a (m - 1 - b)%Z)) /\
  (((1 <= b < th)%Z -> tval (Hxy1 r) (n - 1 - a)%Z b = tval (Hxy1 s) a b) /\
   ((1 <= m - 2 - b < th)%Z -> tval (Hxy2 r) (n - 1 - a)%Z (m - 2 - b)%Z = tval (Hxy2 s) a (m - 2 - b)%Z) /\
   ((1 <= a < th)%Z -> tval (Hyx2 r) a b = - tval (Hyx1 s) a b) /\
   ((1 <= n - 2 - a < th)%Z -> tval (Hyx1 r) (n - 2 - a)%Z b = - tval (Hyx2 s) (n - 2 - a)%Z b)).
(** the source lists do the mirrored thing to the mirrored cell *)
Definition mirror_drive (g : grid) (srcs srcs' : list source) (a b : Z) : Prop :=
  let n := g_Nx g in
  forall Ls Ls', Forall2 (fun r L => src_cells g (sr_kind r) L) srcs Ls -> Forall2 (fun r L => src_cells g (sr_kind r) L) srcs' Ls' ->
  forall t (x : R), lit t (combine srcs' Ls') Ez (n - 1 - a) b x = lit t (combine srcs Ls) Ez a b x /\
    lit t (combine srcs' Ls') Hx (n - 1 - a) b x = lit t (combine srcs Ls) Hx a b x /\
    ((a <= n - 2)%Z -> lit t (combine srcs' Ls') Hy (n - 2 - a) b (- x) = - lit t (combine srcs Ls) Hy a b x).

Record mirror_cell (p q : phys) (a b : Z) : Prop := MirrorCell {
  mi_field : mirror_field (g_Nx (ph_grid p)) (ph_F p) (ph_F q) a b;
  mi_coefs : mirror_coefs (g_Nx (ph_grid p)) (ph_C p) (ph_C q) a b;
  mi_memory : mirror_memory (g_Nx (ph_grid p)) (g_Ny (ph_grid p)) (g_pml (ph_grid p)) (p_psi (ph_pml p)) (p_psi (ph_pml q)) a b;
  mi_debye : alike_all a b (g_Nx (ph_grid p) - 1 - a) b (ph_debye p) (ph_debye q);
  mi_drude : alike_all a b (g_Nx (ph_grid p) - 1 - a) b (ph_drude p) (ph_drude q);
  mi_lorentz : alike_all a b (g_Nx (ph_grid p) - 1 - a) b (ph_lorentz p) (ph_lorentz q);
  mi_prev : alike_prev a b (g_Nx (ph_grid p) - 1 - a) b (ph_prevE p) (ph_prevE q);
  mi_prev2 : alike_prev a b (g_Nx (ph_grid p) - 1 - a) b (ph_prev2E p) (ph_prev2E q);
  mi_drive : mirror_drive (ph_grid p) (ph_srcs p) (ph_srcs q) a b }.

(** q is the mirror image of p *)
Record mirror_state (p q : phys) : Prop := MirrorState {
  ms_grid : ph_grid q = ph_grid p;
  ms_t : ph_t q = ph_t p;
  ms_tfsf : ph_tfsf p = None /\ ph_tfsf q = None;
  ms_cells : forall a b, (0 <= a < g_Nx (ph_grid p))%Z -> (0 <= b < g_Ny (ph_grid p))%Z -> mirror_cell p q a b }.

(** no light in the two outermost columns on either side *)
Definition sides_dark (g : grid) (p : phys) : Prop :=
  forall j, (0 <= j < g_Ny g)%Z -> forall i, (i = 0 \/ i = 1 \/ i = g_Nx g - 2 \/ i = g_Nx g - 1)%Z -> tval (fEz (ph_F p)) i j = 0.
