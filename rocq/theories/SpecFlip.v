(** Exchange of x and y (exact reals): what it means that one state is the transpose of another. *)
From Coq Require Import ZArith Reals String List Bool.
From Verif Require Import Scalar Base VecM GridM GeometryM MaterialM PmlM DftM TfsfM PolarM InterpM H5M ClockM
  MonitorM FieldM SpecSource SourceFacts SpecCone.
Import ListNotations.
Local Open Scope R_scope.
#[local] Existing Instance RNum.

Definition flip_grid (g g' : grid) : Prop :=
  g_Nx g' = g_Ny g /\ g_Ny g' = g_Nx g /\ g_pml g' = g_pml g /\ g_dx g' = g_dx g /\ g_dt g' = g_dt g.

(** cell (a, b) of the one is cell (b, a) of the other *)
Definition flip_field (F G : fields) (a b : Z) : Prop :=
  tval (fEz G) b a = tval (fEz F) a b /\ tval (fHx G) b a = - tval (fHy F) a b /\ tval (fHy G) b a = - tval (fHx F) a b.
Definition flip_coefs (C D : coefs) (a b : Z) : Prop :=
  tval (cCa D) b a = tval (cCa C) a b /\ tval (cCb D) b a = tval (cCb C) a b /\
  tval (cDa D) b a = tval (cDa C) a b /\ tval (cDb D) b a = tval (cDb C) a b.
(** the PML memories of a cell of an n by m grid with layers of th cells: those of Ez remember H
    and change sign, those of H remember Ez and do not *)
Definition flip_memory (n m th : Z) (s r : pml_psi) (a b : Z) : Prop :=
  (((1 <= a <= th)%Z -> tval (Ezy1 r) b a = - tval (Ezx1 s) a b) /\
   ((1 <= n - 1 - a <= th)%Z -> tval (Ezy2 r) b (n - 1 - a)%Z = - tval (Ezx2 s) (n - 1 - a)%Z b) /\
   ((1 <= b <= th)%Z -> tval (Ezx1 r) b a = - tval (Ezy1 s) a b) /\
   ((1 <= m - 1 - b <= th)%Z -> tval (Ezx2 r) (m - 1 - b)%Z a = - tval (Ezy2 s) a (m - 1 - b)%Z)) /\
  (((1 <= b < th)%Z -> tval (Hyx1 r) b a = tval (Hxy1 s) a b) /\
   ((1 <= m - 2 - b < th)%Z -> tval (Hyx2 r) (m - 2 - b)%Z a = tval (Hxy2 s) a (m - 2 - b)%Z) /\
   ((1 <= a < th)%Z -> tval (Hxy1 r) b a = tval (Hyx1 s) a b) /\
   ((1 <= n - 2 - a < th)%Z -> tval (Hxy2 r) b (n - 2 - a)%Z = tval (Hyx2 s) (n - 2 - a)%Z b)).
(** the source lists do the transposed thing to the transposed cell *)
Definition flip_drive (g g' : grid) (srcs srcs' : list source) (a b : Z) : Prop :=
  forall Ls Ls', Forall2 (fun r L => src_cells g (sr_kind r) L) srcs Ls -> Forall2 (fun r L => src_cells g' (sr_kind r) L) srcs' Ls' ->
  forall t (x : R), lit t (combine srcs' Ls') Ez b a x = lit t (combine srcs Ls) Ez a b x /\
    lit t (combine srcs' Ls') Hx b a (- x) = - lit t (combine srcs Ls) Hy a b x /\
    lit t (combine srcs' Ls') Hy b a (- x) = - lit t (combine srcs Ls) Hx a b x.

Record flip_cell (p q : phys) (a b : Z) : Prop := FlipCell {
  fl_field : flip_field (ph_F p) (ph_F q) a b;
  fl_coefs : flip_coefs (ph_C p) (ph_C q) a b;
  fl_memory : flip_memory (g_Nx (ph_grid p)) (g_Ny (ph_grid p)) (g_pml (ph_grid p)) (p_psi (ph_pml p)) (p_psi (ph_pml q)) a b;
  fl_debye : alike_all a b b a (ph_debye p) (ph_debye q);
  fl_drude : alike_all a b b a (ph_drude p) (ph_drude q);
  fl_lorentz : alike_all a b b a (ph_lorentz p) (ph_lorentz q);
  fl_prev : alike_prev a b b a (ph_prevE p) (ph_prevE q);
  fl_prev2 : alike_prev a b b a (ph_prev2E p) (ph_prev2E q);
  fl_drive : flip_drive (ph_grid p) (ph_grid q) (ph_srcs p) (ph_srcs q) a b }.

(** q is the transpose of p *)
Record flip_state (p q : phys) : Prop := FlipState {
  fs_grid : flip_grid (ph_grid p) (ph_grid q);
  fs_t : ph_t q = ph_t p;
  fs_tfsf : ph_tfsf p = None /\ ph_tfsf q = None;
  fs_cells : forall a b, (0 <= a < g_Nx (ph_grid p))%Z -> (0 <= b < g_Ny (ph_grid p))%Z -> flip_cell p q a b }.
