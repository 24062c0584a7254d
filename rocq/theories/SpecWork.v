(** What sources inside a rectangle give to it. *)
From Coq Require Import ZArith Reals String List Bool.
From Verif Require Import Scalar Base VecM GridM GeometryM MaterialM PmlM DftM TfsfM PolarM InterpM H5M ClockM MonitorM FieldM
  SpecGrid SpecGeometry SpecPaint SpecTrace SpecSource SpecMedium SpecMedia SpecMaterial SpecRim SpecEnergy SpecLoss StepFacts ReachFacts SpecOutput SpecPoynt.
Import ListNotations.
Local Open Scope R_scope.
#[local] Existing Instance RNum.

(** how often a source with cells [L] visits a cell *)
Definition visits_to (L : list (Z * Z)) (i j : Z) : R := INR (List.length (filter (fun q => (fst q =? i)%Z && (snd q =? j)%Z) L)).
(** what the sources, each with its cells, add to component c of a cell at time t *)
Definition supply (t : R) (RL : list (source * list (Z * Z))) (c : comp) (i j : Z) : R :=
  fold_right (fun rL x => (if same_comp (sr_c (fst rL)) c then shape_val (tp_shape (sr_tp (fst rL))) t * visits_to (snd rL) i j else 0) + x) 0 RL.
(** the current density that does the same as adding [v] to Ez, in a simple medium *)
Definition as_current (dt : R) (k : mat_kind) (v : R) : R :=
  match k with KSimple m => (sm_eps m / dt + sm_conduc m / 2) * v | _ => 0 end.
(** the power the sources put into the rectangle; [p'] is one time step after [p] *)
Definition work (g : grid) (RL : list (source * list (Z * Z))) (mat : Z -> Z -> material) (q : rect) (p p' : phys) : R :=
  g_dx g ^ 2 * over q (fun i j =>
    Ez_mid p p' i j * as_current (g_dt g) (m_kind (mat i j)) (supply (ph_t p') RL Ez i j)
    + Hx_of p i j * ((supply (ph_t p) RL Hx i j + supply (ph_t p') RL Hx i j) / (2 * g_dt g))
    + Hy_of p i j * ((supply (ph_t p) RL Hy i j + supply (ph_t p') RL Hy i j) / (2 * g_dt g))).
(** no side of the total-field box acts on the cell during the update from s to s', and no source drives
    the Ez of a dispersive medium there *)
Record open_cell (g : grid) (s s' : field) (mt : material) (i j : Z) : Prop := OpenCell {
  oc_apart : apart g; oc_reach : reachable g s; oc_update : update s = Fine s'; oc_dt : 0 < g_dt g;
  oc_e : off_E (ph_tfsf (f_ph s)) i j; oc_x : off_Hx (ph_tfsf (f_ph s)) i j; oc_y : off_Hy (ph_tfsf (f_ph s)) i j;
  oc_src : dispersive (m_kind mt) -> undriven (ph_t (f_ph s) + g_dt g) g (ph_srcs (f_ph s)) Ez i j }.
