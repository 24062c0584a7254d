(** What the output file holds: the records each call makes, by full path. *)
From Coq Require Import ZArith String List Bool.
From Verif Require Import Scalar Base VecM GridM GeometryM MaterialM PmlM DftM TfsfM PolarM
  InterpM H5M ClockM MonitorM FieldM ReportM.
Import ListNotations.

Section SpecFile.
Context {N : Num}.

(** a path, from its parts *)
Definition path (parts : list string) : string := String.concat "/" parts.

(** a record: path, whether rows can be added later, first row *)
Definition record : Type := (string * bool * payload)%type.
Definition where_ (r : record) : string := fst (fst r).
Definition fixed (dir : list string) (l : list (string * payload)) : list record :=
  map (fun '(n, v) => (path (dir ++ [n]), false, v)) l.
Definition two (v : vec) : payload := PReals [fst v; snd v].

(** a file holds a record: the first row of the dataset is the value; a dataset that cannot grow has no other row *)
Definition holds (f : h5) (r : record) : Prop :=
  exists rows, slookup (where_ r) f = Some (HData (snd (fst r)) (snd r :: rows)) /\ (snd (fst r) = false -> rows = []).
Definition absent (f : h5) (r : record) : Prop := slookup (where_ r) f = None.

(** the header *)
Definition header (g : grid) : list record := fixed ["grid"%string]
  [("Lx", PReal (g_Lx g)); ("Ly", PReal (g_Ly g)); ("Nx", PInt (g_Nx g)); ("Ny", PInt (g_Ny g)); ("dx", PReal (g_dx g));
   ("dt", PReal (g_dt g)); ("resolution", PReal (g_res g)); ("pml_thickness", PInt (g_pml g))]%string.

Definition shape_record (x : geometry) : list (string * payload) :=
  match x with
  | Cylinder r => [("radius"%string, PReal r)]
  | Ellipse rx ry => [("rx"%string, PReal rx); ("ry"%string, PReal ry)]
  | Block d => [("dimensions"%string, two d)]
  end.
Definition object_dir (o : obj) : list string :=
  [if o_dyn o then "dynamic_objects" else "objects";
   match o_geom o with Cylinder _ => "cylinders" | Ellipse _ _ => "ellipses" | Block _ => "blocks" end; o_name o]%string.
Definition object_record (o : obj) : list record :=
  [(path (object_dir o ++ ["position"%string]), o_dyn o, two (o_pos o)); (path (object_dir o ++ ["theta"%string]), o_dyn o, PReal (o_theta o))] ++
  fixed (object_dir o) (shape_record (o_geom o)) ++
  fixed (object_dir o) [("material"%string, PRef (path ["materials"%string; m_name (o_mat o)]))].

Definition material_record (m : material) : list record := fixed ["materials"%string; m_name m]
  (match m_kind m with
   | KSimple x => [("material_type", PStr "simple"); ("eps", PReal (sm_eps x)); ("mu", PReal (sm_mu x)); ("conduc", PReal (sm_conduc x))]
   | KDebye x => [("material_type", PStr "debye"); ("eps_inf", PReal (db_eps x)); ("delta_epsilon", PReals (map dp_deps (db_poles x))); ("tau", PReals (map dp_tau (db_poles x)))]
   | KDrude x => [("material_type", PStr "drude"); ("eps_inf", PReal (dr_eps x)); ("omega_0", PReals (map up_omega (dr_poles x))); ("gamma", PReals (map up_gamma (dr_poles x)))]
   | KLorentz x => [("material_type", PStr "lorentz"); ("eps_inf", PReal (lo_eps x)); ("omega_0", PReals (map lp_omega (lo_poles x)));
                    ("gamma", PReals (map lp_gamma (lo_poles x))); ("delta_epsilon", PReals (map lp_deps (lo_poles x)))]
   end)%string.

Definition surface_items (s : surface) : list (string * payload) :=
  [("p1", two (s_a s)); ("p2", two (s_b s)); ("sign", PInt (match s_sign s with Positive => 1 | Negative => -1 end))]%string.
Definition corners (v : volume) : list (string * payload) := [("p1", two (v_a v)); ("p2", two (v_b v))]%string.

Definition source_record (r : source) : list record :=
  match sr_kind r with
  | SPoint p => fixed ["sources"; "point"; sr_name r]%string
  | SLine s => fixed ["sources"; "line"; sr_name r]%string
  end
  ((match tp_shape (sr_tp r) with
    | Gaussian f sig T0 => [("frequency", PReal f); ("T0", PReal T0); ("sig", PReal sig)]
    | Continuous f => [("frequency", PReal f)]
    end)%string ++
   (match sr_kind r with SPoint p => [("position"%string, two p)] | SLine s => surface_items s end)).

Definition frequencies_of (l : list T) : list (string * payload) := [("dft_frequency"%string, PReals l)].
Definition side_record (m : surf_mon) : list record :=
  fixed ["monitors"; "surface_monitor"; sm_name m]%string (surface_items (sm_surf m) ++ frequencies_of (d_freq (sm_dft m))).
Definition monitor_record (m : monitor) : list record :=
  match m with
  | MSurf m => side_record m
  | MBox m => flat_map side_record (bm_sides m) ++
      fixed ["monitors"; "box_monitor"; bm_name m]%string (corners (bm_vol m) ++ frequencies_of (bm_freq m))
  | MCyl m => fixed ["monitors"; "cylinder_monitor"; cm_name m]%string
      ([("center"%string, two (cs_center (cm_surf m))); ("radius"%string, PReal (cs_radius (cm_surf m)))] ++ frequencies_of (d_freq (cm_dft m)))
  | MVol m => fixed ["monitors"; "volume_monitor"; vm_name m]%string (corners (vm_vol m) ++ frequencies_of (d_freq (vm_dft m)))
  | MPt m => fixed ["monitors"; "point_monitor"; pm_name m]%string ([("position"%string, two (pm_pos m))] ++ frequencies_of (d_freq (pm_dft m)))
  end.
Definition view_record (m : tmon) : list record := fixed ["fields"%string; tm_name m]
  (match tm_shape_ m with TPoint p => [("position"%string, two p)] | TSurf s => surface_items s | TVol v => corners v end).
Definition tfsf_record (v : volume) (tp : tprofile) : list record := fixed ["sources"; "tfsf"]%string
  (corners v ++ match tp_dft tp with Some d => frequencies_of (d_freq d) | None => [] end).

(** what the text of a call says it records *)
Definition recorded (c : call) : list record :=
  match c with
  | Do (AddObject o) => object_record o
  | Do (AddSource r) => source_record r
  | Do (AddMonitor m) => monitor_record m
  | Do (AddTimeMonitor m) => view_record m
  | Do (SetTfsf v tp) => tfsf_record v tp
  | _ => []
  end.

(** a result: monitor of the list, kind of result and data *)
Definition result_at (s : field) (c : call) : list record :=
  match c with
  | Report i q =>
    match nth_error (f_mons s) i with
    | Some m =>
      let place := match m with MSurf m => ["surface_monitor"; sm_name m] | MBox m => ["box_monitor"; bm_name m] | MCyl m => ["cylinder_monitor"; cm_name m]
                              | MVol m => ["volume_monitor"; vm_name m] | MPt m => ["point_monitor"; pm_name m] end%string in
      let n := match q with QFlux => "flux" | QForce => "force" | QTorque _ => "torque" | QNtff _ _ => "ntff_point" | QCircle _ _ => "ntff_sphere" end%string in
      match mon_report (g_dx (ph_grid (f_ph s))) m q with
      | Ok v => fixed ("monitors"%string :: place) [(n, v)]
      | _ => []
      end
    | None => []
    end
  | ReportTfsf =>
    match ph_tfsf (f_ph s) with
    | Some q => match tfsf_flux q with Ok x => fixed ["sources"; "tfsf"]%string [("flux"%string, PReals x)] | _ => [] end
    | None => []
    end
  | Do (WriteMonitor i) =>
    match nth_error (f_mons s) i with
    | Some (MSurf m) => fixed ["monitors"; "surface_monitor"; sm_name m]%string (map (fun e => (fst e, PCplx (List.concat (snd e)))) (d_map (sm_dft m)))
    | Some (MCyl m) => fixed ["monitors"; "cylinder_monitor"; cm_name m]%string (map (fun e => (fst e, PCplx (List.concat (snd e)))) (d_map (cm_dft m)))
    | Some (MVol m) => fixed ["monitors"; "volume_monitor"; vm_name m]%string (map (fun e => (fst e, PCplx (List.concat (snd e)))) (d_map (vm_dft m)))
    | Some (MPt m) => fixed ["monitors"; "point_monitor"; pm_name m]%string (map (fun e => (fst e, PCplx (List.concat (snd e)))) (d_map (pm_dft m)))
    | _ => []
    end
  | _ => []
  end.

(** an object of the file after a while: groups stay, fixed datasets do not change, others get rows at the end *)
Definition kept (f f' : h5) : Prop := forall p o, slookup p f = Some o ->
  match o with
  | HGroup => slookup p f' = Some HGroup
  | HData false rows => slookup p f' = Some (HData false rows)
  | HData true rows => exists more, slookup p f' = Some (HData true (rows ++ more))
  end.

(** a program that catches every exception *)
Fixpoint main_catch (l : list call) (s : field) : out field :=
  match l with
  | [] => Fine s
  | c :: l' => match exec_call c s with Fine a | Raise _ a => main_catch l' a | Undef u => Undef u end
  end.

(** two calls that need the same name: objects of one kind and shape, sources of one kind, monitors sharing a group
    (the sides of a box "a" are surface monitors "a_1" to "a_4"), time monitors of regions alike, two total-field sources *)
Definition monitor_names (m : monitor) : list (string * string) :=
  match m with
  | MSurf m => [("surface", sm_name m)]
  | MBox m => (map (fun x => ("surface", sm_name x)) (bm_sides m) ++ [("box", bm_name m)])%list
  | MCyl m => [("cylinder", cm_name m)]
  | MVol m => [("volume", vm_name m)]
  | MPt m => [("point", pm_name m)]
  end%string.
Inductive clash : call -> call -> Prop :=
| cl_object o o' : o_dyn o = o_dyn o' -> o_name o = o_name o' ->
    (match o_geom o, o_geom o' with Cylinder _, Cylinder _ | Ellipse _ _, Ellipse _ _ | Block _, Block _ => True | _, _ => False end) ->
    clash (Do (AddObject o)) (Do (AddObject o'))
| cl_source r r' : sr_name r = sr_name r' ->
    (match sr_kind r, sr_kind r' with SPoint _, SPoint _ | SLine _, SLine _ => True | _, _ => False end) ->
    clash (Do (AddSource r)) (Do (AddSource r'))
| cl_monitor m m' n : In n (monitor_names m) -> In n (monitor_names m') -> clash (Do (AddMonitor m)) (Do (AddMonitor m'))
| cl_view m m' : tm_name m = tm_name m' ->
    (match tm_shape_ m, tm_shape_ m' with TPoint _, TPoint _ => True | TPoint _, _ | _, TPoint _ => False | _, _ => True end) ->
    clash (Do (AddTimeMonitor m)) (Do (AddTimeMonitor m'))
| cl_tfsf v tp v' tp' : clash (Do (SetTfsf v tp)) (Do (SetTfsf v' tp')).

(** the names of the materials of the objects a program adds *)
Definition materials_in (l : list call) : list string :=
  flat_map (fun c => match c with Do (AddObject o) => [m_name (o_mat o)] | _ => [] end) l.

End SpecFile.
