(** Properties of monitors as observers, of output calls, sources, recorded rows and names: C27-C29, C39, C50, C55, C57. *)
From Coq Require Import ZArith Reals List Bool String Lia.
From Verif Require Import Scalar Base BaseFacts VecM GridM GeometryM MaterialM DftM InterpM H5M ClockM MonitorM NamesM FieldM OutFacts PhysFacts SpecClock SpecSource SourceFacts H5Facts WfFacts
  SpecGrid GridFacts SpecOutput NamesFacts PassiveFacts EditFacts PathFacts RecordFacts SnapFacts ExampleFacts ExampleSrc ExampleMon ExampleOut OutputFacts TornFacts SpecFile MatRecFacts.
Import ListNotations.
Local Open Scope Z_scope.

(** ** C27 *)
(** every call sequence that runs still runs without its monitor calls, and every field, coefficient, memory variable, polarization current, source and the time are the same *)
Theorem C27_monitors_are_passive : forall (N : Num) (g : grid) name l s0 s1, mk_field g name = Ok s0 -> run l s0 = Fine s1 ->
  exists s2, run (without_monitors l) s0 = Fine s2 /\ f_ph s2 = f_ph s1.
Proof. exact @passive. Qed.
Print Assumptions C27_monitors_are_passive.
(** two programs that differ only in their monitor calls compute the same fields *)
Theorem C27_any_monitors : forall (N : Num) (g : grid) name l l' s0 s s', mk_field g name = Ok s0 -> without_monitors l = without_monitors l' ->
  run l s0 = Fine s -> run l' s0 = Fine s' -> f_ph s = f_ph s'.
Proof. exact @same_without_monitors. Qed.
Print Assumptions C27_any_monitors.
Example C27_case : exists (g : @grid RNum) s0 s, mk_field g "out" = Ok s0 /\ run out_cmds s0 = Fine s /\
  out_cmds = ([AddObject chip; AddSource lamp; AddMonitor gate; Update; Update; Update; AddTimeMonitor probe; WriteTimeMonitor 0; WriteE; WriteH; Move 0 (1, 0)%R; WriteCurrent 0; Rotate 0 1%R; WriteCurrent 0; WriteE; WriteTimeMonitor 0])%list /\
  List.length (without_monitors out_cmds) = 12%nat.
Proof. destruct out_run as (g & s0 & s1 & s2 & s & _ & _ & E0 & _ & _ & _ & E & _). exists g, s0, s. auto. Qed.

(** ** C28 *)
(** one output call, whether it succeeds or throws *)
Theorem C28_output_call : forall (N : Num) c (s : field), output c = true ->
  match exec c s with Fine a | Raise _ a => f_ph a = f_ph s /\ f_mons a = f_mons s | Undef _ => True end.
Proof. exact @output_frame. Qed.
Print Assumptions C28_output_call.
(** any sequence of output calls, stopping at the first exception or catching every one *)
Theorem C28_output_calls : forall (N : Num) l (s : field), Forall (fun c => output c = true) l ->
  match run l s with Fine a | Raise _ a => f_ph a = f_ph s /\ f_mons a = f_mons s | Undef _ => True end /\
  match run_catch l s with Fine a | Raise _ a => f_ph a = f_ph s /\ f_mons a = f_mons s | Undef _ => True end.
Proof. exact @output_run_frame. Qed.
Print Assumptions C28_output_calls.
(** a whole program and the same program without its output and monitor calls *)
Theorem C28_program : forall (N : Num) (g : grid) name l s0 s1, mk_field g name = Ok s0 -> run l s0 = Fine s1 ->
  exists s2, run (without_output (without_monitors l)) s0 = Fine s2 /\ f_ph s2 = f_ph s1.
Proof. exact @bare_program. Qed.
Print Assumptions C28_program.
Example C28_case : exists s s' t t' : @field RNum, nth_error (f_tmons s) 0 = Some probe /\ run [WriteTimeMonitor 0; WriteE; WriteH] s = Fine s' /\ run [WriteCurrent 0; WriteE; WriteTimeMonitor 0] t = Fine t' /\
  Forall (fun c : @cmd RNum => output c = true) ([WriteTimeMonitor 0; WriteE; WriteH] ++ [WriteCurrent 0; WriteE; WriteTimeMonitor 0]).
Proof. destruct tail_parts as (s & a & b & c & d & e & H & _ & _ & _ & H1 & H2). exists s, c, d, e. repeat (split; [assumption|]). repeat constructor. Qed.

(** ** C29 *)
(** a point source adds its response to one cell of one component and changes nothing else but its own cut-off mark *)
Theorem C29_point : forall (N : Num) n (p p' : phys) r q0, nth_error (ph_srcs p) n = Some r -> sr_kind r = SPoint q0 -> pulse_src n p = Fine p' ->
  exists q F' srcs', to_grid (ph_grid p) q0 = Ok q /\ p' = set_ph_F F' (set_ph_srcs srcs' p) /\ map src_core srcs' = map src_core (ph_srcs p) /\ field_comp (sr_c r) /\
    forall c i j, field_comp c -> fval F' c i j =
      if same_comp (sr_c r) c && ((fst q =? i) && (snd q =? j)) then (fval (ph_F p) c i j + shape_val (tp_shape (sr_tp r)) (ph_t p))%num else fval (ph_F p) c i j.
Proof. exact @point_source. Qed.
Print Assumptions C29_point.
(** a line source: the stepping loop from one end to the other terminates, visits |b - a| different cells, and adds the response once to each *)
Theorem C29_line : forall (N : Num) n (p p' : phys) r s, nth_error (ph_srcs p) n = Some r -> sr_kind r = SLine s -> pulse_src n p = Fine p' ->
  exists a b L F' srcs', to_grid (ph_grid p) (s_a s) = Ok a /\ to_grid (ph_grid p) (s_b s) = Ok b /\ (fst a = fst b \/ snd a = snd b) /\
    visits (Z.sgn (fst b - fst a), Z.sgn (snd b - snd a)) b a L /\ (forall L', visits (Z.sgn (fst b - fst a), Z.sgn (snd b - snd a)) b a L' -> L' = L) /\
    NoDup L /\ Z.of_nat (List.length L) = Z.abs (fst b - fst a) + Z.abs (snd b - snd a) /\
    p' = set_ph_F F' (set_ph_srcs srcs' p) /\ map src_core srcs' = map src_core (ph_srcs p) /\ field_comp (sr_c r) /\
    forall c i j, field_comp c -> fval F' c i j =
      if same_comp (sr_c r) c && existsb (fun q => (fst q =? i) && (snd q =? j)) L then (fval (ph_F p) c i j + shape_val (tp_shape (sr_tp r)) (ph_t p))%num else fval (ph_F p) c i j.
Proof. exact @line_source. Qed.
Print Assumptions C29_line.
Example C29_case : exists p p1 p2 : @phys RNum, ph_srcs p = [lamp; wire] /\ pulse_src 0 p = Fine p1 /\ pulse_src 1 p = Fine p2 /\ sr_kind lamp = SPoint (3, 3)%R /\ sr_kind wire = SLine wire_surf.
Proof. exact sources_run. Qed.

(** ** C39 *)
(** write_field adds one row with the component's values, row by row, and changes no other data set *)
Theorem C39_write_field : forall (N : Num) c (s s' : field), exec (WriteField c) s = Fine s' ->
  exists a, get_field (ph_F (f_ph s)) c = Ok a /\ forall p, data_rows (f_h5 s') p = data_rows (f_h5 s) p ++
    if String.eqb p ("fields" // label c) then [PReals (values a (row_major (rows a) (cols a)))] else [].
Proof. exact @write_field_row. Qed.
Print Assumptions C39_write_field.
Theorem C39_write_H : forall (N : Num) (s s' : field), exec WriteH s = Fine s' -> forall p, data_rows (f_h5 s') p = data_rows (f_h5 s) p ++
    (if String.eqb p "fields/Hx" then [PReals (values (fHx (ph_F (f_ph s))) (row_major (rows (fHx (ph_F (f_ph s)))) (cols (fHx (ph_F (f_ph s))))))] else []) ++
    (if String.eqb p "fields/Hy" then [PReals (values (fHy (ph_F (f_ph s))) (row_major (rows (fHy (ph_F (f_ph s)))) (cols (fHy (ph_F (f_ph s))))))] else []).
Proof. exact @write_H_rows. Qed.
Print Assumptions C39_write_H.
(** a time monitor's write adds one row per selected component, holding the values at the monitor's cells *)
Theorem C39_time_monitor : forall (N : Num) i (s s' : field) m, nth_error (f_tmons s) i = Some m -> exec (WriteTimeMonitor i) s = Fine s' ->
  exists vs, Forall2 (tm_snapshot (ph_grid (f_ph s)) (ph_F (f_ph s)) (tm_shape_ m)) (asked (tm_fields m)) vs /\
    forall p, data_rows (f_h5 s') p = data_rows (f_h5 s) p ++
      flat_map (fun cv => if String.eqb p (("fields" // tm_name m) // label (fst cv)) then [snd cv] else []) (combine (asked (tm_fields m)) vs).
Proof. exact @time_monitor_rows. Qed.
Print Assumptions C39_time_monitor.
(** no call, failing or not, changes or removes an earlier row *)
Theorem C39_rows_kept : forall (N : Num) l (s : field),
  match run l s with Fine a | Raise _ a => forall p, exists r, data_rows (f_h5 a) p = data_rows (f_h5 s) p ++ r | Undef _ => True end /\
  match run_catch l s with Fine a | Raise _ a => forall p, exists r, data_rows (f_h5 a) p = data_rows (f_h5 s) p ++ r | Undef _ => True end.
Proof. exact @rows_kept. Qed.
Print Assumptions C39_rows_kept.
Example C39_case : exists s s1 s2 s3 : @field RNum, nth_error (f_tmons s) 0 = Some probe /\ asked (tm_fields probe) = [Ez] /\ exec (WriteTimeMonitor 0) s = Fine s1 /\ write_field Ez s1 = Fine s2 /\ exec WriteH s2 = Fine s3.
Proof. destruct tail_parts as (s & a & b & c & _ & _ & H1 & H2 & H3 & H4 & _). exists s, a, b, c. auto. Qed.

(** a time monitor's write ended by an exception: the components before the failing one have their row, the
    failing one has none, and the monitor remembers exactly the datasets that were made *)
Theorem C39_interrupted : forall (N : Num) i (s : field) e s' m, nth_error (f_tmons s) i = Some m -> exec (WriteTimeMonitor i) s = Raise e s' ->
  exists ok c rest vs m', asked (tm_fields m) = ok ++ c :: rest /\
    Forall2 (tm_snapshot (ph_grid (f_ph s)) (ph_F (f_ph s)) (tm_shape_ m)) ok vs /\
    (forall p, data_rows (f_h5 s') p = data_rows (f_h5 s) p ++
      flat_map (fun cv => if String.eqb p (("fields" // tm_name m) // label (fst cv)) then [snd cv] else []) (combine ok vs)) /\
    f_tmons s' = upd_nth i m' (f_tmons s) /\ nth_error (f_tmons s') i = Some m' /\
    (tm_name m' = tm_name m /\ tm_shape_ m' = tm_shape_ m /\ tm_fields m' = tm_fields m /\ tm_every m' = tm_every m) /\
    (forall x, In x (tm_dsets m') <-> In x (tm_dsets m) \/ In x ok) /\
    f_ph s' = f_ph s /\ f_mons s' = f_mons s /\ f_mats s' = f_mats s /\ f_clk s' = f_clk s.
Proof. exact @torn. Qed.
Print Assumptions C39_interrupted.
Example C39_interrupted_case : exists (g : @grid RNum) s0 s1 s2, mk_field g "out" = Ok s0 /\
  run [AddTimeMonitor peep1; AddTimeMonitor peep2; WriteTimeMonitor 0] s0 = Fine s1 /\
  nth_error (f_tmons s1) 1 = Some peep2 /\ exec (WriteTimeMonitor 1) s1 = Raise H5Error s2 /\
  (forall m', nth_error (f_tmons s2) 1 = Some m' -> tm_dsets m' = [Hx]).
Proof. exact torn_case. Qed.

(** ** C50 *)
(** the material names registered: each name once, in order of first use *)
Theorem C50_names_once : forall (N : Num) (g : grid) name l s0 s, mk_field g name = Ok s0 -> run l s0 = Fine s ->
  f_mats s = firsts [] (object_materials l) /\ NoDup (f_mats s) /\ forall n, In n (f_mats s) <-> In n (object_materials l).
Proof. exact @material_names. Qed.
Print Assumptions C50_names_once.
(** the file holds the parameters of the first material of each name, one row each, to the end *)
Theorem C50_written_once : forall (N : Num) (g : grid) name l1 o l2 s0 s, mk_field g name = Ok s0 -> run (l1 ++ AddObject o :: l2) s0 = Fine s -> ~ In (m_name (o_mat o)) (object_materials l1) ->
  forall r, In r (material_record (o_mat o)) -> data_rows (f_h5 s) (where_ r) = [snd r].
Proof. exact @material_recorded. Qed.
Print Assumptions C50_written_once.
(** the currents stored under a name keep the parameters of the first dispersive material of that family *)
Theorem C50_first_wins : forall (N : Num) (g : grid) name l1 o l2 s0 s, mk_field g name = Ok s0 -> run (l1 ++ AddObject o :: l2) s0 = Fine s ->
  (forall o', In (AddObject o') l1 -> m_name (o_mat o') = m_name (o_mat o) -> same_family (m_kind (o_mat o)) (m_kind (o_mat o')) = false) ->
  match m_kind (o_mat o) with
  | KSimple _ => True
  | KDebye m => exists q, slookup (m_name (o_mat o)) (ph_debye (f_ph s)) = Some (m, q)
  | KDrude m => exists q, slookup (m_name (o_mat o)) (ph_drude (f_ph s)) = Some (m, q)
  | KLorentz m => exists q, slookup (m_name (o_mat o)) (ph_lorentz (f_ph s)) = Some (m, q)
  end.
Proof. exact @first_wins. Qed.
Print Assumptions C50_first_wins.
Example C50_case : exists (g : @grid RNum) s0 s, mk_field g "out" = Ok s0 /\ run ([] ++ AddObject chip :: [AddObject plate]) s0 = Fine s /\
  m_name (o_mat chip) = m_name (o_mat plate) /\ m_kind (o_mat chip) = KDrude (Drude 1%R [UPole 1%R 0%R]) /\ m_kind (o_mat plate) = KDrude (Drude 3%R [UPole 2%R 1%R]).
Proof. destruct clash_run as (g & s0 & s & E0 & E). exists g, s0, s. auto. Qed.

(** ** C55 *)
Theorem C55_distinct : forall l k ns k' f i j ni nj, creations l k = Ok (ns, k') -> i <> j ->
  nth_error l i = Some (f, None) -> nth_error l j = Some (f, None) -> nth_error ns i = Some ni -> nth_error ns j = Some nj -> ni <> nj.
Proof. exact auto_names_differ. Qed.
Print Assumptions C55_distinct.
(** fewer than 2^31 creations never fail *)
Theorem C55_defined : forall l, Z.of_nat (List.length l) <= INT_MAX -> exists ns k', creations l counters0 = Ok (ns, k') /\ List.length ns = List.length l.
Proof. exact creations_defined. Qed.
Print Assumptions C55_defined.
Example C55_case : creations [(FObject, None); (FMaterial, None); (FObject, Some "object_1"%string); (FMonitor, None); (FObject, None); (FTimeMonitor, None)] counters0 =
  Ok (["object_0"; "material_0"; "object_1"; "monitor_0"; "object_1"; "monitor_0"]%string, Counters 2 1 0 1 1).
Proof. reflexivity. Qed.

(** ** C57 *)
(** the poses recorded for each dynamic object are those of the specification [tracks]: the pose at add time, then the pose at each write_current call *)
Theorem C57_rows : forall (N : Num) (g : grid) name l s0 s, mk_field g name = Ok s0 -> run l s0 = Fine s ->
  List.length (ph_objs (f_ph s)) = List.length (tracks l) /\
  forall i o k, nth_error (ph_objs (f_ph s)) i = Some o -> nth_error (tracks l) i = Some k ->
    o_dyn o = k_dyn k /\ o_pos o = k_pos k /\ o_theta o = k_theta k /\ k_rows k <> [] /\
    (o_dyn o = true -> data_rows (f_h5 s) (path (object_dir o ++ ["position"%string])) = map (fun q => two (fst q)) (k_rows k) /\
                       data_rows (f_h5 s) (path (object_dir o ++ ["theta"%string])) = map (fun q => PReal (snd q)) (k_rows k)).
Proof. exact @trace_rows. Qed.
Print Assumptions C57_rows.
Theorem C57_count : forall (N : Num) (g : grid) name l1 o l2 s0 s, mk_field g name = Ok s0 -> run (l1 ++ AddObject o :: l2) s0 = Fine s -> o_dyn o = true ->
  exists o', nth_error (ph_objs (f_ph s)) (adds l1) = Some o' /\
    List.length (data_rows (f_h5 s) (path (object_dir o' ++ ["position"%string]))) = S (writes_of (adds l1) l2) /\
    List.length (data_rows (f_h5 s) (path (object_dir o' ++ ["theta"%string]))) = S (writes_of (adds l1) l2).
Proof. exact @trace_count. Qed.
Print Assumptions C57_count.
Example C57_case : exists (g : @grid RNum) s0 s, mk_field g "out" = Ok s0 /\ run ([] ++ AddObject chip :: List.tl out_cmds) s0 = Fine s /\ o_dyn chip = true /\
  map k_rows (tracks out_cmds) = [[((4, 4), 0); (vadd (4, 4) (1, 0), 0); (vadd (4, 4) (1, 0), 0 + 1)]]%R /\ writes_of 0 out_cmds = 2%nat.
Proof. destruct out_run as (g & s0 & s1 & s2 & s & _ & _ & E0 & _ & _ & _ & E & _). exists g, s0, s. auto. Qed.
