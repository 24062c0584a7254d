(** The main functions of the programs that come with the library and use its current interface:
    tests/simple.cpp, tests/main.cpp, tests/mie.cpp, tests/mie/mie.cpp, tests/drude/mie.cpp and
    tests/force/force.cpp.  (The others use member functions that no longer exist.)
    Names made by the counters of NamesM are parameters here.  Constructors of regions and time
    profiles have no effect on the field, so they are evaluated before the first call. *)
From Coq Require Import ZArith String List Bool.
From Verif Require Import Scalar Base VecM GridM GeometryM MaterialM PmlM DftM TfsfM PolarM
  InterpM H5M ClockM MonitorM FieldM ReportM.
Import ListNotations.
Local Open Scope Z_scope.

Section Shipped.
Context {N : Num}.

(** for (int i = 0; i != n; i++) F.update(); as in tests/simple.cpp:22-24 *)
Definition steps (n : Z) : list call := repeat (Do Update) (Z.to_nat n).
(** Array::LinSpaced(n, 1/30.0, 3/30.0), tests/simple.cpp:16 *)
Definition frequencies (n : Z) : list T :=
  map (linspaced n (1 / nofZ 30)%num (nofZ 3 / nofZ 30)%num) (zrange 0 n).
(** gaussian_time(f, 1/w, T0) with f = 2/30.0, tests/simple.cpp:15, 20 *)
Definition pulse (w T0 : Z) : shape := Gaussian (2 / nofZ 30)%num (1 / nofZ w)%num (nofZ T0).
(** vec(x, y) with integer literals, tests/simple.cpp:18 *)
Definition point (x y : Z) : vec := (nofZ x, nofZ y).
(** volume({x,y}, l) and volume({x,y}, l, l), tests/simple.cpp:18, tests/mie.cpp:16 *)
Definition around (x y l : Z) : volume := mk_volume_c (point x y) (nofZ l) (nofZ l).
(** grid_properties grid(120,120,2,p), tests/simple.cpp:11, main.cpp:14, mie.cpp:13,
    mie/mie.cpp:13, drude/mie.cpp:17, force/force.cpp:13 *)
Definition shipped_grid (p : Z) : res grid := mk_grid (nofZ 120) (nofZ 120) 2%num p.

(** tests/simple.cpp:18-29; [src] is the name of the source *)
Definition simple_main (src : string) : res (list call) :=
  m1 <- mk_box_mon "m1" (around 60 60 20) DTangent (frequencies 500) ;;
  m2 <- mk_box_mon "m2" (around 95 95 20) DTangent (frequencies 500) ;;
  Ok ([Do (AddMonitor (MBox m1)); Do (AddMonitor (MBox m2));
       Do (AddSource (Source src Ez (SPoint (point 60 60)) (TProfile (pulse 200 80) None)))] ++
      steps 4000 ++ [Report 0 QFlux; Report 1 QFlux]).

(** tests/main.cpp:20-25 *)
Definition emag_main (src : string) : res (list call) :=
  Ok (Do (AddSource (Source src Ez (SPoint (point 30 30)) (TProfile (pulse 200 80) None))) ::
      concat (repeat [Do Update; Do WriteE] (Z.to_nat 3000))).

(** cylinder(20) of a material at (60,60), tests/mie.cpp:18 *)
Definition rod (name mat : string) (k : mat_kind) : obj :=
  Obj name false (Cylinder (nofZ 20)) (Material mat k) (point 60 60) 0%num.
(** cylinder_monitor<DFT::tangent>(name, cylinder_surface(vec(60,60), r), freq), tests/mie.cpp:20 *)
Definition circle (name : string) (r : Z) : monitor :=
  MCyl (mk_cyl_mon name (CylSurf (point 60 60) (nofZ r)) false (frequencies 200)).

(** tests/mie.cpp:16-31; debye(2,1,1) has one pole.  tfsf.domain() (include/tfsf.h:47) is the volume given. *)
Definition mie_main (ob mat view : string) : res (list call) :=
  tp <- tp_with_freq (pulse 100 80) (frequencies 200) ;;
  Ok ([Do (SetTfsf (around 60 60 65) tp);
       Do (AddObject (rod ob mat (KDebye (Debye 2%num [DPole 1%num 1%num]))));
       Do (AddMonitor (circle "scat" 50)); Do (AddMonitor (circle "absorb" 25));
       Do (AddTimeMonitor (TMon view (TVol (around 60 60 65)) Ez (mk_every 10) []))] ++
      steps 4000 ++ [ReportTfsf; Report 0 QFlux; Report 1 QFlux]).

(** tests/mie/mie.cpp:16-28 *)
Definition mie_simple_main (ob mat : string) : res (list call) :=
  tp <- tp_with_freq (pulse 100 80) (frequencies 200) ;;
  Ok ([Do (SetTfsf (around 60 60 65) tp);
       Do (AddObject (rod ob mat (KSimple (Simple 2%num 1%num 0%num))));
       Do (AddMonitor (circle "scat" 50)); Do (AddMonitor (circle "absorb" 25))] ++
      steps 8000 ++ [ReportTfsf; Report 1 QFlux; Report 0 QFlux]).

(** tests/drude/mie.cpp:20-35; the constants of the generated material.h are parameters *)
Definition mie_drude_main (ob mat : string) (omega gamma : T) : res (list call) :=
  tp <- tp_with_freq (pulse 100 200) (frequencies 200) ;;
  m <- mk_box_mon "scat" (around 60 60 80) DTangent (frequencies 200) ;;
  Ok ([Do (SetTfsf (around 60 60 75) tp); Do (AddMonitor (MBox m));
       Do (AddObject (rod ob mat (KDrude (Drude 2%num [UPole omega gamma]))))] ++
      steps 8000 ++ [Report 0 QFlux; ReportTfsf]).

(** tests/force/force.cpp:16-27; get_box_monitor has the default buffer of 1, include/object.h:45.
    The argument of [QTorque] is not used by a box. *)
Definition force_main (ob mat box : string) : res (list call) :=
  tp <- tp_with_freq (pulse 100 80) (frequencies 200) ;;
  Ok ([Do (SetTfsf (around 60 60 65) tp);
       Do (AddObject (rod ob mat (KSimple (Simple 2%num 1%num 0%num))));
       Do (GetBoxMonitor 0 box (frequencies 200) 1)] ++
      steps 8000 ++ [ReportTfsf; Report 0 QForce; Report 0 (QTorque (0, 0)%num)]).

End Shipped.
