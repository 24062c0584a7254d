(** What it means that one state is the sum of two others (exact reals): same grid, materials and
    clock, and every evolving quantity is the sum, cell by cell. *)
From Coq Require Import ZArith Reals String List Bool.
From Verif Require Import Scalar Base VecM GridM GeometryM MaterialM PmlM DftM TfsfM PolarM InterpM H5M ClockM
  MonitorM FieldM SourceFacts.
Import ListNotations.
Local Open Scope R_scope.
#[local] Existing Instance RNum.

Definition sums (a b c : tensor) (i j : Z) : Prop := tval c i j = tval a i j + tval b i j.

Definition sum_fields (a b c : fields) (i j : Z) : Prop :=
  sums (fEz a) (fEz b) (fEz c) i j /\ sums (fHx a) (fHx b) (fHx c) i j /\ sums (fHy a) (fHy b) (fHy c) i j.
(** the PML memories of a cell of an n by m grid with layers of th cells *)
Definition sum_memory (n m th : Z) (a b c : pml_psi) (i j : Z) : Prop :=
  (((1 <= i <= th)%Z -> sums (Ezx1 a) (Ezx1 b) (Ezx1 c) i j) /\
   ((1 <= n - 1 - i <= th)%Z -> sums (Ezx2 a) (Ezx2 b) (Ezx2 c) (n - 1 - i)%Z j) /\
   ((1 <= j <= th)%Z -> sums (Ezy1 a) (Ezy1 b) (Ezy1 c) i j) /\
   ((1 <= m - 1 - j <= th)%Z -> sums (Ezy2 a) (Ezy2 b) (Ezy2 c) i (m - 1 - j)%Z)) /\
  (((1 <= j < th)%Z -> sums (Hxy1 a) (Hxy1 b) (Hxy1 c) i j) /\
   ((1 <= m - 2 - j < th)%Z -> sums (Hxy2 a) (Hxy2 b) (Hxy2 c) i (m - 2 - j)%Z) /\
   ((1 <= i < th)%Z -> sums (Hyx1 a) (Hyx1 b) (Hyx1 c) i j) /\
   ((1 <= n - 2 - i < th)%Z -> sums (Hyx2 a) (Hyx2 b) (Hyx2 c) (n - 2 - i)%Z j)).
(** currents; the strengths are the same *)
Definition sum_polar (i j : Z) (a b c : polar) : Prop :=
  pl_n a = pl_n c /\ pl_n b = pl_n c /\ pl_dt a = pl_dt c /\ pl_dt b = pl_dt c /\
  forall k, (0 <= k < pl_n c)%Z ->
    t3val (pl_c a) i j k = t3val (pl_c c) i j k /\ t3val (pl_c b) i j k = t3val (pl_c c) i j k /\
    t3val (pl_J c) i j k = t3val (pl_J a) i j k + t3val (pl_J b) i j k /\
    t3val (pl_pJ c) i j k = t3val (pl_pJ a) i j k + t3val (pl_pJ b) i j k.
Inductive sum_media {M} (i j : Z) : list (string * (M * polar)) -> list (string * (M * polar)) -> list (string * (M * polar)) -> Prop :=
| sum_nil : sum_media i j [] [] []
| sum_cons nm x a b c P Q R : sum_polar i j a b c -> sum_media i j P Q R ->
    sum_media i j ((nm, (x, a)) :: P) ((nm, (x, b)) :: Q) ((nm, (x, c)) :: R).
(** copies of Ez of an earlier step *)
Definition sum_prev (i j : Z) (a b c : option tensor) : Prop :=
  match a, b, c with Some x, Some y, Some z => sums x y z i j | None, None, None => True | _, _, _ => False end.

Record sum_cell (p q r : phys) (i j : Z) : Prop := SumCell {
  su_field : sum_fields (ph_F p) (ph_F q) (ph_F r) i j;
  su_memory : sum_memory (g_Nx (ph_grid r)) (g_Ny (ph_grid r)) (g_pml (ph_grid r))
                (p_psi (ph_pml p)) (p_psi (ph_pml q)) (p_psi (ph_pml r)) i j;
  su_debye : sum_media i j (ph_debye p) (ph_debye q) (ph_debye r);
  su_drude : sum_media i j (ph_drude p) (ph_drude q) (ph_drude r);
  su_lorentz : sum_media i j (ph_lorentz p) (ph_lorentz q) (ph_lorentz r);
  su_prev : sum_prev i j (ph_prevE p) (ph_prevE q) (ph_prevE r);
  su_prev2 : sum_prev i j (ph_prev2E p) (ph_prev2E q) (ph_prev2E r) }.

(** the same grid, update coefficients and clock *)
Definition same_setting (p r : phys) : Prop :=
  ph_grid p = ph_grid r /\ ph_t p = ph_t r /\ ph_sc p = ph_sc r /\ p_coef (ph_pml p) = p_coef (ph_pml r) /\ ph_C p = ph_C r.

(** r is driven by the sources of p followed by those of q (names, components, places and
    waveforms); a TFSF plane wave, if any, belongs to p *)
Definition sum_drive (p q r : phys) : Prop :=
  map src_core (ph_srcs r) = map src_core (ph_srcs p) ++ map src_core (ph_srcs q) /\
  ph_tfsf r = ph_tfsf p /\ ph_tfsf q = None.

Record sum_state (p q r : phys) : Prop := SumState {
  ss_left : same_setting p r; ss_right : same_setting q r;
  ss_drive : sum_drive p q r;
  ss_cells : forall i j, (0 <= i < g_Nx (ph_grid r))%Z -> (0 <= j < g_Ny (ph_grid r))%Z -> sum_cell p q r i j }.
