(** A dark simulation in any arithmetic: which numbers count as zero, as finite and as harmless
    divisors is given by three predicates. *)
From Coq Require Import ZArith String List.
From Flocq Require Import IEEE754.BinarySingleNaN.
From Verif Require Import Scalar Base VecM GridM GeometryM MaterialM PmlM DftM TfsfM PolarM InterpM H5M ClockM MonitorM FieldM Float.
Import ListNotations.
Local Open Scope Z_scope.

Section Dark.
Context {N : Num}.
Variables (nil fin dvs : T -> Prop).

(** *** everything the update evolves is zero *)
Definition nil2 (a : tensor) : Prop := forall i j, nil (tval a i j).
Definition nil3 (a : tensor3) : Prop := forall i j k, nil (t3val a i j k).
Definition nilP {M} (P : list (string * (M * polar))) : Prop := forall nm x q, In (nm, (x, q)) P -> nil3 (pl_J q) /\ nil3 (pl_pJ q).
Definition nilo (o : option tensor) : Prop := forall a, o = Some a -> nil2 a.
Definition nil_psi (s : pml_psi) : Prop :=
  nil2 (Ezx1 s) /\ nil2 (Ezx2 s) /\ nil2 (Ezy1 s) /\ nil2 (Ezy2 s) /\ nil2 (Hxy1 s) /\ nil2 (Hxy2 s) /\ nil2 (Hyx1 s) /\ nil2 (Hyx2 s).
Definition all_dark (p : phys) : Prop :=
  nil2 (fEz (ph_F p)) /\ nil2 (fHx (ph_F p)) /\ nil2 (fHy (ph_F p)) /\ nil_psi (p_psi (ph_pml p)) /\
  nilo (ph_prevE p) /\ nilo (ph_prev2E p) /\ nilP (ph_debye p) /\ nilP (ph_drude p) /\ nilP (ph_lorentz p).

(** *** the numbers a material multiplies the fields and currents by are finite *)
Definition calm_debye (x : debye) (dt : T) : Prop :=
  Forall (fun kp => fin kp /\ fin (debye_Cb x dt * half * (1 + kp))%num) (debye_kappa x dt) /\
  Forall (fun b => fin (b / dt)%num) (debye_beta x dt).
Definition calm_drude (x : drude) (dt : T) : Prop :=
  Forall (fun kp => fin kp /\ fin (drude_Cb x dt * half * (1 + kp))%num) (drude_kappa x dt) /\
  Forall fin (drude_beta x dt).
Definition calm_lorentz (x : lorentz) (dt : T) : Prop :=
  fin (lorentz_Ca_prev x dt) /\ fin (lorentz_Cb x dt * half)%num /\
  Forall (fun al => fin al /\ fin (1 + al)%num) (lorentz_alpha x dt) /\ Forall fin (lorentz_beta x dt) /\
  Forall (fun d => fin (d / (2 * dt))%num) (lorentz_delta x dt).
Definition calm (k : mat_kind) (dt : T) : Prop :=
  fin (mat_Ca k dt) /\ fin (mat_Cb k dt) /\ fin (mat_Da k dt) /\ fin (mat_Db k dt) /\
  match k with KSimple _ => True | KDebye x => calm_debye x dt | KDrude x => calm_drude x dt | KLorentz x => calm_lorentz x dt end.

(** *** so are the numbers the constructor computes for the grid and the PML *)
Definition all_arr (P : T -> Prop) (a : arr) : Prop := forall i, 0 <= i < alen a -> P (aval a i).
Definition calm_pml (b : pml) (sc : scaling) : Prop :=
  dvs (p_dx (p_par b)) /\
  all_arr fin (be_x (p_coef b)) /\ all_arr fin (ce_x (p_coef b)) /\ all_arr fin (bh_x (p_coef b)) /\ all_arr fin (ch_x (p_coef b)) /\
  all_arr fin (be_y (p_coef b)) /\ all_arr fin (ce_y (p_coef b)) /\ all_arr fin (bh_y (p_coef b)) /\ all_arr fin (ch_y (p_coef b)) /\
  all_arr dvs (kedx sc) /\ all_arr dvs (khdx sc) /\ all_arr dvs (kedy sc) /\ all_arr dvs (khdy sc).
Definition calm_start (g : grid) (s0 : field) : Prop :=
  dvs (g_dt g) /\ dvs (2 * g_dt g)%num /\ calm vacuum (g_dt g) /\ calm_pml (ph_pml (f_ph s0)) (ph_sc (f_ph s0)).
End Dark.

(** calls that neither add a source nor set the TFSF; the objects they add are calm *)
Definition unlit_cmd {N : Num} (fin : T -> Prop) (dt : T) (c : cmd) : Prop :=
  match c with AddSource _ | SetTfsf _ _ => False | AddObject o => calm fin (m_kind (o_mat o)) dt | _ => True end.

(** double: plus or minus zero; a finite number; neither zero nor NaN *)
Definition zero64 (x : f64) : Prop := match x with B754_zero _ => True | _ => False end.
Definition finite64 (x : f64) : Prop := is_finite x = true.
Definition divisor64 (x : f64) : Prop := match x with B754_zero _ | B754_nan => False | _ => True end.
