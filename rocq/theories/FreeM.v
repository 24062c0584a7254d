(** The free far-field functions of src/monitors/ntff.cpp and surface_monitor::locate, which the library itself never calls. *)
From Coq Require Import ZArith String List Bool.
From Verif Require Import Scalar Base VecM GridM DftM InterpM MonitorM.
Import ListNotations.
Local Open Scope Z_scope.

Section Free.
Context {N : Num}.

(** compute_ntff_point, src/monitors/ntff.cpp:31-67; the sum over the samples is commented out there (lines 41-64) *)
Definition compute_ntff_point (E H : dentry) (freq : list T) (center pc : vec) : res (list (T * T)) :=
  let r := vnorm (vsub pc center) in
  let ks := map (fun f => 2 * npi * f)%num freq in
  let integral := repeat (0, 0)%num (length freq) in
  Ok (map (fun '(k, z) => cmul (ntff_factor k r) z) (combine ks integral)).

(** compute_ntff_sphere, src/monitors/ntff.cpp:69-71: an empty body *)
Definition compute_ntff_sphere (E H : dentry) (da : T) (sg : sign) : res (list (list (T * T))) := UB MissingReturn.

(** surface_monitor::locate, surface_monitor.h:57-92, then a call of the function it returns: the lambdas of lines 62, 74, 83
    capture the local isurf by reference and read it after locate has returned; any other component flows off the end *)
Definition surf_locate (g : grid) (m : surf_mon) (name : string) (i : Z) : res T :=
  is <- to_grid_surface g (sm_surf m) ;;
  match comp_name name with Some _ => UB DanglingRef | None => UB MissingReturn end.
End Free.
