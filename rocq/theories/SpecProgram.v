(** Programs that follow the rules of the library: names are used once, regions lie in the grid,
    results are written once.  Everything is stated about the text of the program; nothing refers
    to the state of the simulation. *)
From Coq Require Import ZArith Reals String Ascii List Bool.
From Verif Require Import Scalar Base VecM GridM GeometryM MaterialM PmlM DftM TfsfM PolarM
  InterpM H5M ClockM MonitorM FieldM ReportM SpecGrid SpecSafety SpecLive.
Import ListNotations.
Local Open Scope R_scope.
#[local] Existing Instance RNum.

(** a name: not empty and without a slash *)
Definition proper (n : string) : Prop := n <> ""%string /\ ~ In "/"%char (list_ascii_of_string n).

(** the bounding box of an object lies in the domain *)
Definition in_domain (g : grid) (o : obj) : Prop :=
  in_box (0, 0) (g_Lx g, g_Ly g) (v_a (obj_box o)) /\ in_box (0, 0) (g_Lx g, g_Ly g) (v_b (obj_box o)).

(** the regions of time monitors *)
Definition in_cells2 (g : grid) (p : vec) : Prop := exists q, to_grid g p = Ok q /\ in_grid (g_Nx g) (g_Ny g) q.
Definition viewable (g : grid) (sh : tm_shape) : Prop :=
  match sh with
  | TPoint p => in_cells2 g p
  | TSurf s => in_cells2 g (s_a s) /\ in_cells2 g (s_b s) /\ to_grid g (s_a s) <> to_grid g (s_b s) /\
      exists sg, mk_surface (s_a s) (s_b s) sg = Ok s
  | TVol v => block_inside g v
  end.
(** a newly made time monitor with every(n), 0 <= n <= INT_MAX; its name is not that of a field *)
Definition new_view (g : grid) (m : tmon) : Prop :=
  proper (tm_name m) /\ ~ In (tm_name m) ["Ez"; "Hx"; "Hy"]%string /\ viewable g (tm_shape_ m) /\
  (exists n, (0 <= n <= 2147483647)%Z /\ tm_every m = mk_every n) /\ tm_dsets m = [].

(** the groups a monitor makes: for a box, one for each side and one of its own *)
Definition mon_dirs (m : monitor) : list (string * string) :=
  match m with
  | MBox b => map (fun x => ("surface_monitor"%string, sm_name x)) (bm_sides b) ++ [("box_monitor"%string, bm_name b)]
  | m => [mon_sub_name m]
  end.

(** the results each kind of monitor can give *)
Definition offers (m : monitor) (q : quantity) : Prop :=
  let two k := k = DTangent \/ k = DAll in
  match m, q with
  | MSurf m, (QFlux | QNtff _ _) => two (sm_kind m)
  | MSurf m, (QForce | QTorque _) => sm_kind m = DAll
  | MBox m, (QFlux | QNtff _ _) => Forall (fun x => two (sm_kind x)) (bm_sides m)
  | MBox m, QCircle _ n => Forall (fun x => two (sm_kind x)) (bm_sides m) /\ (0 <= n)%Z
  | MBox m, (QForce | QTorque _) => Forall (fun x => sm_kind x = DAll) (bm_sides m)
  | MCyl _, (QFlux | QNtff _ _) => True
  | MCyl _, QCircle _ n => (0 <= n)%Z
  | MCyl m, (QForce | QTorque _) => cm_all m = true
  | _, _ => False
  end.

(** a region for a total-field source: one cell away from the lower edges *)
Definition tfsf_region (g : grid) (v : volume) : Prop :=
  exists a b, to_grid g (v_a v) = Ok a /\ to_grid g (v_b v) = Ok b /\
  (1 <= fst a < g_Nx g)%Z /\ (1 <= snd a < g_Ny g)%Z /\ (1 <= fst b < g_Nx g)%Z /\ (1 <= snd b < g_Ny g)%Z.

(** what a program has made so far *)
Record ledger := Ledger {
  l_objs : list obj;                            (* where they are now *)
  l_srcs : list (string * string);              (* kind and name *)
  l_dirs : list (string * string);              (* groups of monitors: kind and name *)
  l_mons : list monitor;                        (* the current monitors, as they were made *)
  l_views : list string;                        (* names of time monitors *)
  l_results : list (string * string * string);  (* results written *)
  l_tfsf : option bool;                         (* a total-field source, with or without transform *)
  l_tfsf_result : bool;
  l_step : Z }.
Definition blank : ledger := Ledger [] [] [] [] [] [] None false 0.

Definition same_group (o o' : obj) : Prop :=
  o_dyn o = o_dyn o' /\ geom_group (o_geom o) = geom_group (o_geom o') /\ o_name o = o_name o'.
(** the name under which the transforms of a monitor count as a result *)
Definition transform : string := "transform"%string.
Definition result (m : monitor) (x : string) : string * string * string := (mon_sub_name m, x).
(** is this a box?  writing one stores nothing *)
Definition hollow (m : monitor) : Prop := match m with MBox _ => True | _ => False end.

Definition new_monitor (g : grid) (L : ledger) (m : monitor) : Prop :=
  watches g m /\ Forall (fun d => proper (snd d)) (mon_dirs m) /\ NoDup (mon_dirs m) /\
  (forall d, In d (mon_dirs m) -> ~ In d (l_dirs L)).
Definition surrounding (o : obj) (name : string) (freq : list R) (buffer : Z) (m : monitor) : Prop :=
  exists b, mk_box_mon name (vol_pad (obj_box o) (IZR buffer)) DAll freq = Ok b /\ m = MBox b.

(** when a call is allowed *)
Definition allowed (g : grid) (L : ledger) (c : call) : Prop :=
  match c with
  | Do Update => (l_step L < 2147483647)%Z
  | Do UpdateMaterialGrid => Forall (in_domain g) (l_objs L)
  | Do (AddObject o) => proper (o_name o) /\ proper (m_name (o_mat o)) /\ in_domain g o /\
      Forall (fun o' => ~ same_group o o') (l_objs L)
  | Do (AddSource r) => proper (sr_name r) /\ source_inside g r /\ ~ In (src_sub (sr_kind r), sr_name r) (l_srcs L)
  | Do (AddMonitor m) => new_monitor g L m
  | Do (GetBoxMonitor i n fr b) => forall o, nth_error (l_objs L) i = Some o ->
      exists m, surrounding o n fr b m /\ new_monitor g L m
  | Do (AddTimeMonitor m) => new_view g m /\ ~ In (tm_name m) (l_views L)
  | Do (SetTfsf v tp) => l_tfsf L = None /\ tfsf_region g v
  | Do (WriteField c) => c = Ez \/ c = Hx \/ c = Hy
  | Do (WriteMonitor i) => forall m, nth_error (l_mons L) i = Some m -> hollow m \/ ~ In (result m transform) (l_results L)
  | Report i q => forall m, nth_error (l_mons L) i = Some m -> offers m q /\ ~ In (result m (report_name q)) (l_results L)
  | ReportTfsf => forall b, l_tfsf L = Some b -> b = true /\ l_tfsf_result L = false
  | _ => True
  end.

(** what a call adds to the ledger *)
Definition moved (i : nat) (h : obj -> obj) (l : list obj) : list obj :=
  match nth_error l i with Some o => if o_dyn o then upd_nth i (h o) l else l | None => l end.
Definition with_objs (x : list obj) (L : ledger) : ledger :=
  Ledger x (l_srcs L) (l_dirs L) (l_mons L) (l_views L) (l_results L) (l_tfsf L) (l_tfsf_result L) (l_step L).
Definition with_srcs (x : list (string * string)) (L : ledger) : ledger :=
  Ledger (l_objs L) x (l_dirs L) (l_mons L) (l_views L) (l_results L) (l_tfsf L) (l_tfsf_result L) (l_step L).
Definition with_mons (d : list (string * string)) (x : list monitor) (L : ledger) : ledger :=
  Ledger (l_objs L) (l_srcs L) d x (l_views L) (l_results L) (l_tfsf L) (l_tfsf_result L) (l_step L).
Definition with_views (x : list string) (L : ledger) : ledger :=
  Ledger (l_objs L) (l_srcs L) (l_dirs L) (l_mons L) x (l_results L) (l_tfsf L) (l_tfsf_result L) (l_step L).
Definition with_results (x : list (string * string * string)) (L : ledger) : ledger :=
  Ledger (l_objs L) (l_srcs L) (l_dirs L) (l_mons L) (l_views L) x (l_tfsf L) (l_tfsf_result L) (l_step L).
Definition with_tfsf (x : option bool) (b : bool) (L : ledger) : ledger :=
  Ledger (l_objs L) (l_srcs L) (l_dirs L) (l_mons L) (l_views L) (l_results L) x b (l_step L).
Definition with_step (x : Z) (L : ledger) : ledger :=
  Ledger (l_objs L) (l_srcs L) (l_dirs L) (l_mons L) (l_views L) (l_results L) (l_tfsf L) (l_tfsf_result L) x.
Definition has_dft (tp : tprofile) : bool := match tp_dft tp with Some _ => true | None => false end.

(** the ledger after a call; a relation because of the boxes made by get_box_monitor *)
Inductive enters : ledger -> call -> ledger -> Prop :=
| en_update L : enters L (Do Update) (with_step (l_step L + 1) L)
| en_clear L : enters L (Do ClearFields) (with_step 0 L)
| en_object L o : enters L (Do (AddObject o)) (with_objs (l_objs L ++ [o]) L)
| en_move L i d : enters L (Do (Move i d)) (with_objs (moved i (obj_move d) (l_objs L)) L)
| en_rotate L i d : enters L (Do (Rotate i d)) (with_objs (moved i (obj_rotate d) (l_objs L)) L)
| en_pos L i p : enters L (Do (SetPosition i p)) (with_objs (moved i (obj_set_pos p) (l_objs L)) L)
| en_theta L i t : enters L (Do (SetTheta i t)) (with_objs (moved i (obj_set_theta t) (l_objs L)) L)
| en_source L r : enters L (Do (AddSource r)) (with_srcs ((src_sub (sr_kind r), sr_name r) :: l_srcs L) L)
| en_monitor L m : enters L (Do (AddMonitor m)) (with_mons (mon_dirs m ++ l_dirs L) (l_mons L ++ [m]) L)
| en_box L i n fr b o m : nth_error (l_objs L) i = Some o -> surrounding o n fr b m ->
    enters L (Do (GetBoxMonitor i n fr b)) (with_mons (mon_dirs m ++ l_dirs L) (l_mons L ++ [m]) L)
| en_nobox L i n fr b : nth_error (l_objs L) i = None -> enters L (Do (GetBoxMonitor i n fr b)) L
| en_remove L : enters L (Do RemoveMonitors) (with_mons (l_dirs L) [] L)
| en_view L m : enters L (Do (AddTimeMonitor m)) (with_views (l_views L ++ [tm_name m]) L)
| en_tfsf L v tp : enters L (Do (SetTfsf v tp)) (with_tfsf (Some (has_dft tp)) false L)
| en_transform L i m : nth_error (l_mons L) i = Some m ->
    enters L (Do (WriteMonitor i)) (with_results (result m transform :: l_results L) L)
| en_notransform L i : nth_error (l_mons L) i = None -> enters L (Do (WriteMonitor i)) L
| en_report L i q m : nth_error (l_mons L) i = Some m ->
    enters L (Report i q) (with_results (result m (report_name q) :: l_results L) L)
| en_noreport L i q : nth_error (l_mons L) i = None -> enters L (Report i q) L
| en_report_tfsf L : enters L ReportTfsf (with_tfsf (l_tfsf L) true L)
| en_regrid L : enters L (Do UpdateMaterialGrid) L
| en_unpaint L : enters L (Do ClearMaterials) L
| en_field L c : enters L (Do (WriteField c)) L
| en_E L : enters L (Do WriteE) L
| en_H L : enters L (Do WriteH) L
| en_tm L i : enters L (Do (WriteTimeMonitor i)) L
| en_current L i : enters L (Do (WriteCurrent i)) L
| en_clock L : enters L WriteMonitorCall L.

Inductive well_formed (g : grid) : ledger -> list call -> Prop :=
| wfp_end L : well_formed g L []
| wfp_call L c L' l : allowed g L c -> enters L c L' -> well_formed g L' l -> well_formed g L (c :: l).
