(** include/materials/*.h, src/materials/*.cpp (coefficients). *)
From Coq Require Import ZArith String List Bool.
From Verif Require Import Scalar Base.
Import ListNotations.

Section Material.
Context {N : Num}.

(** src/materials/simple_material.cpp:9-11 *)
Record simple := Simple { sm_eps : T; sm_mu : T; sm_conduc : T }.
(** Poles.  The C++ keeps one array per parameter; the model keeps a list of poles,
    so arrays of different lengths (undefined behaviour in Eigen) cannot be written; ArraysM.v has the arrays. *)
Record dpole := DPole { dp_deps : T; dp_tau : T }.          (* include/materials/debye.h:35-37 *)
Record debye := Debye { db_eps : T; db_poles : list dpole }.
Record upole := UPole { up_omega : T; up_gamma : T }.        (* include/materials/drude.h:35-37 *)
Record drude := Drude { dr_eps : T; dr_poles : list upole }.
Record lpole := LPole { lp_omega : T; lp_deps : T; lp_gamma : T }. (* include/materials/lorentz.h:38-41 *)
Record lorentz := Lorentz { lo_eps : T; lo_poles : list lpole }.

(** material_variant, include/object.h:25, with the name from include/materials/material.h:29 *)
Inductive mat_kind :=
| KSimple (m : simple) | KDebye (m : debye) | KDrude (m : drude) | KLorentz (m : lorentz).
(** include/materials/material.h:29 (name) with the variant of include/object.h:25 *)
Record material := Material { m_name : string; m_kind : mat_kind }.

(** src/materials/simple_material.cpp:26-28 *)
Definition simple_Ca (m : simple) (dt : T) : T :=
  ((1 - sm_conduc m * dt / (2 * sm_eps m)) / (1 + sm_conduc m * dt / (2 * sm_eps m)))%num.
(** src/materials/simple_material.cpp:30-32 *)
Definition simple_Cb (m : simple) (dt : T) : T :=
  ((dt / sm_eps m) / (1 + sm_conduc m * dt / (2 * sm_eps m)))%num.

(** src/materials/debye.cpp:32-34 *)
Definition debye_beta1 (dt : T) (p : dpole) : T :=
  ((dp_deps p * dt / dp_tau p) / (1 + dt / (2 * dp_tau p)))%num.
(** src/materials/debye.cpp:32-34, one value per pole *)
Definition debye_beta (m : debye) (dt : T) : list T := map (debye_beta1 dt) (db_poles m).
(** src/materials/debye.cpp:36-38 *)
Definition debye_kappa1 (dt : T) (p : dpole) : T :=
  ((1 - dt / (2 * dp_tau p)) / (1 + dt / (2 * dp_tau p)))%num.
(** src/materials/debye.cpp:36-38, one value per pole *)
Definition debye_kappa (m : debye) (dt : T) : list T := map (debye_kappa1 dt) (db_poles m).
(** src/materials/debye.cpp:44-47 *)
Definition debye_Cb (m : debye) (dt : T) : T :=
  ((2 * dt) / (2 * db_eps m + nsum (debye_beta m dt)))%num.

(** src/materials/drude.cpp:34-36 *)
Definition drude_beta1 (dt : T) (p : upole) : T :=
  ((npow (up_omega p) 2 * dt / 2) / (1 + up_gamma p * dt / 2))%num.
(** src/materials/drude.cpp:34-36, one value per pole *)
Definition drude_beta (m : drude) (dt : T) : list T := map (drude_beta1 dt) (dr_poles m).
(** src/materials/drude.cpp:38-40 *)
Definition drude_kappa1 (dt : T) (p : upole) : T :=
  ((1 - up_gamma p * dt / 2) / (1 + up_gamma p * dt / 2))%num.
(** src/materials/drude.cpp:38-40, one value per pole *)
Definition drude_kappa (m : drude) (dt : T) : list T := map (drude_kappa1 dt) (dr_poles m).
(** src/materials/drude.cpp:42-45 *)
Definition drude_Ca (m : drude) (dt : T) : T :=
  let s := nsum (drude_beta m dt) in
  ((2 * dr_eps m - dt * s) / (2 * dr_eps m + dt * s))%num.
(** src/materials/drude.cpp:47-50 *)
Definition drude_Cb (m : drude) (dt : T) : T :=
  let s := nsum (drude_beta m dt) in ((2 * dt) / (2 * dr_eps m + dt * s))%num.

(** src/materials/lorentz.cpp:39-41 *)
Definition lorentz_alpha1 (dt : T) (p : lpole) : T :=
  ((2 - npow (lp_omega p) 2 * npow dt 2) / (1 + lp_gamma p * dt))%num.
(** src/materials/lorentz.cpp:39-41, one value per pole *)
Definition lorentz_alpha (m : lorentz) (dt : T) : list T := map (lorentz_alpha1 dt) (lo_poles m).
(** src/materials/lorentz.cpp:43-45 *)
Definition lorentz_beta1 (dt : T) (p : lpole) : T :=
  ((lp_gamma p * dt - 1) / (lp_gamma p * dt + 1))%num.
(** src/materials/lorentz.cpp:43-45, one value per pole *)
Definition lorentz_beta (m : lorentz) (dt : T) : list T := map (lorentz_beta1 dt) (lo_poles m).
(** src/materials/lorentz.cpp:47-49 *)
Definition lorentz_delta1 (dt : T) (p : lpole) : T :=
  ((lp_deps p * npow (lp_omega p) 2 * npow dt 2) / (1 + lp_gamma p * dt))%num.
(** src/materials/lorentz.cpp:47-49, one value per pole *)
Definition lorentz_delta (m : lorentz) (dt : T) : list T := map (lorentz_delta1 dt) (lo_poles m).
(** src/materials/lorentz.cpp:51-54 *)
Definition lorentz_Ca_prev (m : lorentz) (dt : T) : T :=
  let s := nsum (lorentz_delta m dt) in ((s / 2) / (2 * lo_eps m + s))%num.
(** src/materials/lorentz.cpp:56-59 *)
Definition lorentz_Ca (m : lorentz) (dt : T) : T :=
  let s := nsum (lorentz_delta m dt) in ((2 * lo_eps m) / (2 * lo_eps m + s / 2))%num.
(** src/materials/lorentz.cpp:61-64 *)
Definition lorentz_Cb (m : lorentz) (dt : T) : T :=
  let s := nsum (lorentz_delta m dt) in ((2 * dt) / (2 * lo_eps m + s / 2))%num.

(** The virtual functions Ca, Cb, Da, Db dispatched on the kind; Da and Db are
    src/materials/simple_material.cpp:34-40, debye.cpp:49-55, drude.cpp:52-58,
    lorentz.cpp:66-72; debye Ca is debye.cpp:40-42. *)
Definition mat_Ca (k : mat_kind) (dt : T) : T :=
  match k with
  | KSimple m => simple_Ca m dt
  | KDebye _ => 1%num
  | KDrude m => drude_Ca m dt
  | KLorentz m => lorentz_Ca m dt
  end.
(** Cb: simple_material.cpp:30-32, debye.cpp:44-47, drude.cpp:47-50, lorentz.cpp:61-64 *)
Definition mat_Cb (k : mat_kind) (dt : T) : T :=
  match k with
  | KSimple m => simple_Cb m dt
  | KDebye m => debye_Cb m dt
  | KDrude m => drude_Cb m dt
  | KLorentz m => lorentz_Cb m dt
  end.
(** Da: simple_material.cpp:34-36, debye.cpp:49-51, drude.cpp:52-54, lorentz.cpp:66-68 *)
Definition mat_Da (k : mat_kind) (dt : T) : T :=
  match k with KSimple _ | KDebye _ | KDrude _ | KLorentz _ => 1%num end.
(** Db: simple_material.cpp:38-40, debye.cpp:53-55, drude.cpp:56-58, lorentz.cpp:70-72 *)
Definition mat_Db (k : mat_kind) (dt : T) : T :=
  match k with KSimple _ | KDebye _ | KDrude _ | KLorentz _ => dt end.

(** drude_lorentz, src/materials/creation.cpp:8-24; the auto-generated name is a
    parameter. *)
Definition small : T := nofQ 1 100000000000000000000.
(** src/materials/creation.cpp:8-24 *)
Definition drude_lorentz (d : drude) (l : lorentz) : lorentz :=
  Lorentz (dr_eps d)
    (map (fun p => LPole small (npow (up_omega p) 2 / npow small 2)%num (up_gamma p / 2)%num)
         (dr_poles d) ++ lo_poles l).

(** background medium, src/field2.cpp:39 with the defaults of
    include/materials/simple_material.h:10 (mu = 1, conduc = 0) *)
Definition vacuum : mat_kind := KSimple (Simple 1%num 1%num 0%num).

End Material.
