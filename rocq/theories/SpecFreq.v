(** Complex amplitudes, Fourier sums of a run at one cell, and the permittivity of the media. *)
From Coq Require Import ZArith Reals String List Bool.
From Verif Require Import Scalar Base VecM GridM GeometryM MaterialM PmlM DftM TfsfM PolarM InterpM H5M ClockM MonitorM FieldM
  SpecGrid SpecGeometry SpecPaint SpecTrace SpecMedia SpecMedium SpecMaterial.
Import ListNotations.
Local Open Scope R_scope.
#[local] Existing Instance RNum.

(** complex numbers as pairs of real and imaginary part *)
Definition cx : Type := (R * R)%type.
Definition cx_add (a b : cx) : cx := (fst a + fst b, snd a + snd b).
Definition cx_opp (a : cx) : cx := (- fst a, - snd a).
Definition cx_sub (a b : cx) : cx := (fst a - fst b, snd a - snd b).
Definition cx_mul (a b : cx) : cx := (fst a * fst b - snd a * snd b, fst a * snd b + snd a * fst b).
Definition cx_inv (a : cx) : cx := (fst a / (fst a ^ 2 + snd a ^ 2), - snd a / (fst a ^ 2 + snd a ^ 2)).
Definition cx_div (a b : cx) : cx := cx_mul a (cx_inv b).
Definition cx_abs (a : cx) : R := sqrt (fst a ^ 2 + snd a ^ 2).
Definition re (x : R) : cx := (x, 0).

(** x 1 e^(-iw) + ... + x N e^(-iwN), and c 0 e^(-iw/2) + ... + c (N-1) e^(-iw(N-1/2)) *)
Definition spectrum (w : R) (x : nat -> R) (N : nat) : cx :=
  (rsum N (fun n => x (S n) * cos (w * INR (S n))), - rsum N (fun n => x (S n) * sin (w * INR (S n)))).
Definition half_spectrum (w : R) (c : nat -> R) (N : nat) : cx :=
  (rsum N (fun n => c n * cos (w * (INR n + / 2))), - rsum N (fun n => c n * sin (w * (INR n + / 2)))).

(** media with usual parameters, dispersive ones with one pole *)
Definition plain_medium (k : mat_kind) : Prop :=
  match k with
  | KSimple m => 0 < sm_eps m /\ 0 <= sm_conduc m
  | KDebye x => 0 < db_eps x /\ exists d, db_poles x = [d] /\ 0 < dp_tau d /\ 0 <= dp_deps d
  | KDrude x => 0 < dr_eps x /\ exists d, dr_poles x = [d] /\ 0 <= up_gamma d
  | KLorentz _ => False
  end.
(** the textbook permittivity at angular frequency om, time dependence e^(i om t) *)
Definition permittivity (k : mat_kind) (om : R) : cx :=
  match k with
  | KSimple m => cx_add (re (sm_eps m)) (cx_div (re (sm_conduc m)) (0, om))
  | KDebye x => match db_poles x with
                | [d] => cx_add (re (db_eps x)) (cx_div (re (dp_deps d)) (1, om * dp_tau d))
                | _ => re 0 end
  | KDrude x => match dr_poles x with
                | [d] => cx_add (re (dr_eps x)) (cx_div (re (up_omega d ^ 2)) (cx_mul (0, om) (up_gamma d, om)))
                | _ => re 0 end
  | KLorentz _ => re 0
  end.
(** what is left at the two ends of the run, e and j being the fields and currents there *)
Definition leftover (k : mat_kind) (dt om e j : R) : R :=
  match k with
  | KSimple m => (sm_eps m / dt + sm_conduc m / 2) * e
  | KDebye x => match db_poles x with
                | [d] => (db_eps x + dp_deps d) / dt * e + (1 + dp_tau d / dt) * j
                | _ => 0 end
  | KDrude x => match dr_poles x with
                | [d] => dr_eps x / dt * e + / 2 * j + (up_omega d ^ 2 / 2 * e + (/ dt + up_gamma d / 2) * j) / om
                | _ => 0 end
  | KLorentz _ => 0
  end.
(** a point is made of [mt] and of nothing else, the objects being [os] *)
Definition point_of (os : list obj) (mt : material) (pos : vec) : Prop :=
  match m_kind mt with
  | KSimple m => material_at os vacuum pos (KSimple m) /\ forall o, In o os -> in_obj o pos -> ~ dispersive (m_kind (o_mat o))
  | k => only_in os (m_name mt) k pos
  end.
(** the frequency at which a central difference over dt turns w per step into a derivative over an average *)
Definition warped (dt w : R) : R := 2 / dt * tan (w / 2).
