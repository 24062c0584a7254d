(** Which numbers a result holds, by the kind of the monitor (C64). *)
From Coq Require Import ZArith String List.
From Verif Require Import Scalar Base VecM GridM DftM MonitorM H5M FieldM ReportM SpecFile SpecSpectra.
Import ListNotations.
Local Open Scope Z_scope.

Section Result.
Context {N : Num}.
(** the far field at n points of a circle, one after the other *)
Definition around_circle (far : vec -> res (list (T * T))) (center : vec) (r : T) (n : Z) (l : list (T * T)) : Prop :=
  exists rows, Forall2 (fun i row => let th := linspaced n 0%num (2 * npi)%num i in
    far (vadd (vscale r (ncos th, nsin th)) center) = Ok row) (zrange 0 n) rows /\ l = concat rows.
Inductive measures (dx : T) : monitor -> quantity -> payload -> Prop :=
| me_surf_flux m x : surf_flux dx m = Ok x -> measures dx (MSurf m) QFlux (PReals x)
| me_box_flux m x : box_flux dx m = Ok x -> measures dx (MBox m) QFlux (PReals x)
| me_cyl_flux m x : cyl_flux m = Ok x -> measures dx (MCyl m) QFlux (PReals x)
| me_surf_force m F v : surf_force dx m = Ok F -> by_component F v -> measures dx (MSurf m) QForce v
| me_box_force m F v : box_force dx m = Ok F -> by_component F v -> measures dx (MBox m) QForce v
| me_cyl_force m F v : cyl_force m = Ok F -> by_component F v -> measures dx (MCyl m) QForce v
| me_surf_torque m c x : surf_torque dx c m = Ok x -> measures dx (MSurf m) (QTorque c) (PReals x)
| me_box_torque m c x : box_torque dx m = Ok x -> measures dx (MBox m) (QTorque c) (PReals x)
| me_cyl_torque m c x : cyl_torque m = Ok x -> measures dx (MCyl m) (QTorque c) (PReals x)
| me_surf_far m c p x : surf_ntff dx m c p = Ok x -> measures dx (MSurf m) (QNtff c p) (PCplx x)
| me_box_far m c p x : box_ntff dx m p = Ok x -> measures dx (MBox m) (QNtff c p) (PCplx x)
| me_cyl_far m c p x : cyl_ntff m p = Ok x -> measures dx (MCyl m) (QNtff c p) (PCplx x)
| me_box_circle m r n x : around_circle (box_ntff dx m) (vol_center (bm_vol m)) r n x -> measures dx (MBox m) (QCircle r n) (PCplx x)
| me_cyl_circle m r n x : around_circle (cyl_ntff m) (cs_center (cm_surf m)) r n x -> measures dx (MCyl m) (QCircle r n) (PCplx x).

(** where the file keeps it *)
Definition kept_at (m : monitor) (q : quantity) (v : payload) : list record :=
  fixed ["monitors"%string; match m with MSurf _ => "surface_monitor" | MBox _ => "box_monitor" | MCyl _ => "cylinder_monitor" | MVol _ => "volume_monitor" | MPt _ => "point_monitor" end%string;
         match m with MSurf m => sm_name m | MBox m => bm_name m | MCyl m => cm_name m | MVol m => vm_name m | MPt m => pm_name m end]
    [(match q with QFlux => "flux" | QForce => "force" | QTorque _ => "torque" | QNtff _ _ => "ntff_point" | QCircle _ _ => "ntff_sphere" end%string, v)].
End Result.
