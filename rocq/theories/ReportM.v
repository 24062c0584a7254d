(** Calls on the objects handed out by Field2D that write results to the output file:
    include/monitors/flux.h, force.h, ntff.h, src/monitors/flux.cpp, force.cpp, ntff.cpp,
    the member functions flux(), force(), torque() and ntff() of the monitors, tfsf::flux(),
    and Field2D::write_monitor. *)
From Coq Require Import ZArith String List Bool.
From Verif Require Import Scalar Base VecM GridM GeometryM MaterialM PmlM DftM TfsfM PolarM
  InterpM H5M ClockM MonitorM FieldM.
Import ListNotations.
Local Open Scope Z_scope.

Section Reports.
Context {N : Num}.

(** the member functions of the monitors that return a Flux, Force, Torque, ntff_point or ntff_sphere:
    surface_monitor.h:165 (flux), 178 (ntff), 217 (partial_force), 231 (partial_torque);
    box_monitor.h:44 (flux), 54 and 64 (ntff), 77 (force), 87 (torque);
    cylinder_monitor.h:77 (flux), 88 and 172 (ntff), 124 (force), 146 (torque) *)
Inductive quantity :=
| QFlux | QForce | QTorque (center : vec) | QNtff (center p : vec) | QCircle (radius : T) (n : Z).

(** Array::LinSpaced(n, lo, hi) of Eigen, element i, as used in box_monitor.h:66: the last element
    is hi itself, also if it is the only one *)
Definition linspaced (n : Z) (lo hi : T) (i : Z) : T :=
  if i =? n - 1 then hi else (lo + nofZ i * ((hi - lo) / nofZ (n - 1)))%num.

(** ntff(radius, N), box_monitor.h:64-75, cylinder_monitor.h:172-185: row i is the far field at the
    i-th point of the circle.  A negative N is an invalid size. *)
Definition ntff_circle (far : vec -> res (list (T * T))) (center : vec) (radius : T) (n : Z)
    : res (list (list (T * T))) :=
  if n <? 0 then UB BadExtent else
  mapM (fun i => let th := linspaced n 0%num (2 * npi)%num i in
                 far (vadd (vscale radius (ncos th, nsin th)) center)) (zrange 0 n).

(** Force holds a tensor of 2 rows, src/monitors/force.cpp:37, include/vec.h:24 (row-major) *)
Definition force_pay (F : list vec) : payload := PReals (map fst F ++ map snd F).

(** the data of the returned object.  A combination that does not exist in the code (static_assert,
    or no such member) is the outcome of a missing map entry or MissingReturn here.
    [QTorque] and [QNtff] carry a center only for surface monitors (surface_monitor.h:178, 231). *)
Definition mon_report (dx : T) (m : monitor) (q : quantity) : res payload :=
  match m, q with
  | MSurf m, QFlux => S <- surf_flux dx m ;; Ok (PReals S)
  | MSurf m, QForce => S <- surf_force dx m ;; Ok (force_pay S)
  | MSurf m, QTorque c => S <- surf_torque dx c m ;; Ok (PReals S)
  | MSurf m, QNtff c p => S <- surf_ntff dx m c p ;; Ok (PCplx S)
  | MBox m, QFlux => S <- box_flux dx m ;; Ok (PReals S)
  | MBox m, QForce => S <- box_force dx m ;; Ok (force_pay S)
  | MBox m, QTorque _ => S <- box_torque dx m ;; Ok (PReals S)
  | MBox m, QNtff _ p => S <- box_ntff dx m p ;; Ok (PCplx S)
  | MBox m, QCircle r n => S <- ntff_circle (box_ntff dx m) (vol_center (bm_vol m)) r n ;; Ok (PCplx (concat S))
  | MCyl m, QFlux => S <- cyl_flux m ;; Ok (PReals S)
  | MCyl m, QForce => S <- cyl_force m ;; Ok (force_pay S)
  | MCyl m, QTorque _ => S <- cyl_torque m ;; Ok (PReals S)
  | MCyl m, QNtff _ p => S <- cyl_ntff m p ;; Ok (PCplx S)
  | MCyl m, QCircle r n => S <- ntff_circle (cyl_ntff m) (cs_center (cm_surf m)) r n ;; Ok (PCplx (concat S))
  | _, _ => UB MissingReturn
  end.

(** name of the data set: src/monitors/flux.cpp:15, force.cpp:17, 30, ntff.cpp:15, 28 *)
Definition report_name (q : quantity) : string :=
  match q with
  | QFlux => "flux" | QForce => "force" | QTorque _ => "torque"
  | QNtff _ _ => "ntff_point" | QCircle _ _ => "ntff_sphere"
  end%string.

(** open_group, src/monitors/flux.cpp:14: fails unless the name is a group *)
Definition h5_open (f : h5) (p : string) : res h5 :=
  match slookup p f with Some HGroup => Ok f | _ => Throw H5Error end.

(** Flux::write and the others: src/monitors/flux.cpp:12-16, force.cpp:14-18, 27-31, ntff.cpp:12-16, 25-29 *)
Definition write_report (f : h5) (dir name : string) (v : payload) : res h5 :=
  f <- h5_open f dir ;; h5_create f (dir // name) false v.

(** m.flux().write() and the like for the i-th monitor of the list.  Making the object opens the
    monitor's group, src/monitors/monitor.cpp:21-27; for a box also the groups of its sides. *)
Definition report (i : nat) (q : quantity) (s : field) : out field :=
  match nth_error (f_mons s) i with
  | None => Fine s
  | Some m =>
    let '(sub, name) := mon_sub_name m in
    prim s (mon_report (g_dx (ph_grid (f_ph s))) m q) (fun v =>
    let ops := map OGroup (match m with
                           | MBox b => flat_map (fun x : surf_mon => mon_groups "surface_monitor" (sm_name x)) (bm_sides b)
                           | _ => []
                           end ++ mon_groups sub name) in
    prim (half_written ops s)
         (f <- h5_ops (f_h5 s) ops ;; write_report f (mon_dir sub name) (report_name q) v) (fun f =>
    Fine (set_f_h5 f s)))
  end.

(** tfsf.flux().write(), src/tfsf.cpp:119-131 with src/monitors/flux.cpp:12-16 *)
Definition report_tfsf (s : field) : out field :=
  match ph_tfsf (f_ph s) with
  | None => Fine s
  | Some q =>
    prim s (S <- tfsf_flux q ;; write_report (f_h5 s) ("sources" // "tfsf")%string "flux" (PReals S)) (fun f =>
    Fine (set_f_h5 f s))
  end.

(** Field2D::write_monitor, src/field2.cpp:101-105: the output itself is commented out *)
Definition write_monitor (s : field) : out field := start Hdf5 s >>= stop Hdf5.

(** a statement of a user program, such as tests/simple.cpp:8-29: a call of FieldM, or one of the calls above *)
Inductive call :=
| Do (c : cmd)
| Report (i : nat) (q : quantity)
| ReportTfsf
| WriteMonitorCall.

(** one statement: the functions above and include/field2.h:44-64 *)
Definition exec_call (c : call) (s : field) : out field :=
  match c with
  | Do c => exec c s
  | Report i q => report i q s
  | ReportTfsf => report_tfsf s
  | WriteMonitorCall => write_monitor s
  end.

(** the body of a main function such as tests/simple.cpp:8-29, with the loops unrolled *)
Fixpoint exec_main (l : list call) (s : field) : out field :=
  match l with [] => Fine s | c :: l' => exec_call c s >>= exec_main l' end.

End Reports.
