# Formal model of Qbox in Rocq (Coq 8.16.1)

Qbox is a 2-D (TM: Ez, Hx, Hy) finite-difference time-domain Maxwell solver in C++17.
`rocq/theories` contains an executable model of it, and theorems about the model.

## 1. How the code is modelled

* **Numbers.** The model is written once, over an abstract record of scalar operations
  `Num` (`Scalar.v`). `RNum` instantiates it with Coq's real numbers, `B64` (`Float.v`) with IEEE-754
  binary64 (Flocq), libm functions being arbitrary parameters. A theorem stated `forall (N : Num)` uses
  no arithmetic law at all, hence holds for IEEE doubles bit for bit; a theorem on `RNum` is about exact
  arithmetic, i.e. rounding is *not* modelled there. C++ `int` is `Z`; double-to-int casts outside the
  32-bit range are undefined behaviour in the model.
* **Undefined behaviour and exceptions** are distinct outcomes (`Base.v`: `res`): `Ok`, `Throw`, `UB`.
  Every array access is bounds-checked and gives `UB OutOfBounds` otherwise. Integer division by zero,
  null dereference, dangling reference, missing return value, signed overflow of the step counter are
  separate `UB` outcomes. At API level (`FieldM.v`) an exception carries the partially modified state:
  the file keeps what the call wrote before the exception (`half_written`), and the members assigned before it stay assigned
  (C73, C74). Two calls are simplified: `update_material_grid` keeps the old coefficients if the lookup of a material throws
  (it cannot for objects that were added), and `get_box_monitor` attaches all four sides before it writes the first one.
* **Loops** are bounded loops with the C++ bounds and body order (`for_up`), mutating arrays in place.
* **Files**: one model file per source area (`*M.v`, table below). Every definition there cites the file and
  lines it models and says where it simplifies (`tools/uncited.py` checks that none is missing). Proofs are in
  separate files (`*Facts.v`, `*Run.v`), the vocabulary of the statements in `Spec*.v`, concrete runs in
  `Example*.v`/`Refute*.v`/`*Cases.v`, and the property theorems alone, with their examples and
  `Print Assumptions`, in `Props*.v`.

| file | models |
|---|---|
| `Scalar.v`, `Float.v`, `Base.v` | double/int arithmetic, outcomes, arrays, loops |
| `VecM.v` | include/vec.h |
| `GridM.v` | include/grid.h, src/grid.cpp |
| `GeometryM.v` | src/geometry/*, inside/bounding box of src/object.cpp |
| `MaterialM.v` | coefficients of src/materials/{simple_material,debye,drude,lorentz,creation}.cpp |
| `PmlM.v` | include/pml.h, src/pml.cpp |
| `DftM.v` | include/dft.h, src/dft.cpp, src/sources/time_profile.cpp |
| `TfsfM.v` | include/tfsf.h, src/tfsf.cpp |
| `PolarM.v` | src/materials/*_polarization.cpp |
| `InterpM.v` | Field2D::interpolate, to_grid, to_xgrid, to_ygrid, get_field_ref |
| `MonitorM.v` | include/monitors/*.h, src/monitors/{flux,force}.cpp: sampling, flux, force, torque, ntff(p), operator-= |
| `ClockM.v` | the ticking flags of src/timer.cpp and the `every` counter of time_monitor.h |
| `TimerM.v` | elapsed time, the phases of each call between starting and stopping a clock, and the final report of src/timer.cpp |
| `H5M.v` | what is assumed of h5cpp: the output file as a list of named groups and datasets |
| `NamesM.v` | the static name counters |
| `FieldM.v` | src/field2.cpp, include/field2.h, objects, sources, time monitors: the `Field2D` state machine and whole programs (`cmd`, `run`) |
| `ReportM.v` | results and their `write`: src/monitors/{flux,force,ntff}.cpp, `ntff(radius, N)`, `tfsf::flux().write()`, `write_monitor`; programs with these calls (`call`, `exec_main`) |
| `ArraysM.v` | the parameter arrays of debye, drude and lorentz materials and their element-by-element functions |
| `ConsoleM.v` | the lines printed by the constructor, `display_info` and `update` |
| `FreeM.v` | `compute_ntff_point`, `compute_ntff_sphere` (src/monitors/ntff.cpp) and `surface_monitor::locate`, which nothing calls |
| `ShippedM.v` | the main functions of tests/{simple,main,mie}.cpp, tests/{mie,drude}/mie.cpp, tests/force/force.cpp |

Not modelled:

* the look of the console output (colours, padding, number of digits);
* the byte format of HDF5 and the internals of h5cpp (creating an existing dataset fails, a group is opened or
  created, only extendable datasets can grow);
* Eigen itself: its expressions are read as the scalar operations they stand for, in the order written;
  `Eigen::round` (src/grid.cpp:19) is read as `std::round`, ties away from zero;
* compiler, memory allocator, aliasing, copying and moving of a `Field2D`, threads (the code has none);
* the other programs in tests/ (debye, lorentz, dynamics, more, ntff, pml), which call member functions that no
  longer exist;
* dead code: `dft::add(vector)` (include/dft.h:67-70, would not compile if instantiated), the
  declared-but-undefined `reset_tfsf` and `write_tfsf`; `old/`, `bench/`, `docs/`.

Overflow of `int` is tracked for the step counter, the cadence counters, the name counters, the squared length
and the extents of surfaces and the length of the incident line; elsewhere index arithmetic is on `Z`.

## 2. Trusted base

* Coq's kernel (8.16.1) and the reading of /repo that the model's comments cite line by line.
* Axioms: only those of the Coq standard library. The list below is what `Print Assumptions` prints for the
  property theorems (made by `tools/axioms.py`); all are axioms of `Coq.Reals` and `Coq.Logic`.
* No axiom, section variable left open, `Admitted`, functor or module type of our own.

<!-- axioms begin -->
* closed under the global context (85 theorems): `C81_debye_partial`, `C81_drude_partial`, `C81_lorentz_partial`, `C81_debye_refuted`, `C81_drude_refuted`, `C81_lorentz_refuted`, `C81_merge_partial`, `C81_merge_refuted`, `C26_step_count`, `C26_overflow`, `C37_cadence`, `C38_refuted`, `C38_big_periods_partial`, `C38_small_periods_partial`, `C38_edge_partial`, `C40_timers`, `C41_write_refuted`, `C41_update_refuted`, `C41_write_frame_partial`, `C41_update_frame_partial`, `C52_empty_refuted`, `C52_named_partial`, `C53_first_refuted`, `C53_never_refuted`, `C82_progress_partial`, `C82_hundreds_partial`, `C63_append_only`, `C63_append_only_catching`, `C63_recorded_once`, `C63_names_once`, `C63_paths_differ`, `C64_header`, `C64_records`, `C64_program`, `C64_material`, `C80_locate_refuted`, `C12_clip_keeps_cells`, `C13_clip_confines_refuted`, `C13_clip_confines_partial`, `C73_writes`, `C73_interrupted`, `C74_unchanged_partial`, `C74_object_partial`, `C74_tfsf_partial`, `C58_block`, `C58_block_once`, `C27_monitors_are_passive`, `C27_any_monitors`, `C28_output_call`, `C28_output_calls`, `C28_program`, `C29_point`, `C29_line`, `C39_write_field`, `C39_write_H`, `C39_time_monitor`, `C39_rows_kept`, `C39_interrupted`, `C50_names_once`, `C50_written_once`, `C50_first_wins`, `C55_distinct`, `C55_defined`, `C57_rows`, `C57_count`, `C80_sphere_refuted`, `C81_one_debye_partial`, `C81_one_drude_partial`, `C81_one_lorentz_partial`, `C16_finite_speed`, `C40_programs`, `C39_write_E`, `C25_restart_partial`, `C64_results`, `C14_update_in_range`, `C14_field_update_in_range`, `C14_small_grid_out_of_range`, `C51_no_bad_optional`, `C51_polarizations_present`, `C86_moved`, `C64_forces`, `C15_update_is_yee_cpml`, `C15_boundary_unchanged`, `C15_update_with_sources`, `C15_coefficients`
* `ClassicalDedekindReals.sig_forall_dec`, `ClassicalDedekindReals.sig_not_dec`, `Classical_Prop.classic`, `FunctionalExtensionality.functional_extensionality_dep` (33 theorems): `C26_time_double`, `C18_double_partial`, `C18_double_refuted`, `C87_near`, `C87_total`, `C87_monotone`, `C87_domain`, `C87_count`, `C87_extent`, `C87_edge`, `C87_surface`, `C88_driven`, `C88_driven_short`, `C18_solid_partial`, `C01_round_trip_double`, `C23_usable_partial`, `C79_every_wave`, `C79_slower_than_light`, `C65_gaussian`, `C65_one_bell`, `C65_one_wave`, `C01_volume_double`, `C01_surface_double`, `C25_restart_refuted`, `C88_updates`, `C88_short`, `C42_damped_double`, `C42_lossless_double`, `C21_pml_coefficients_absorb`, `C21_pml_memory_bounded`, `C88_program`, `C88_program_short`, `C23_zero_thickness_refuted`
* `ClassicalDedekindReals.sig_forall_dec`, `ClassicalDedekindReals.sig_not_dec`, `FunctionalExtensionality.functional_extensionality_dep` (190 theorems): `C67_surrounds`, `C67_no_further`, `C68_refuted`, `C68_tight_partial`, `C68_ellipse_partial`, `C68_quarter_turns_partial`, `C68_slack_partial`, `C76_no_magnetic_charge`, `C76_charge_kept`, `C26_time_real`, `C82_info_partial`, `C82_size_refuted`, `C20_energy_kept`, `C69_surface`, `C69_cylinder`, `C69_box`, `C69_power`, `C69_wavelength`, `C70_box`, `C70_cylinder`, `C70_even`, `C70_closes`, `C71_refuted`, `C71_samples_partial`, `C80_refuted`, `C80_zero_partial`, `C83_response`, `C83_absorbs`, `C09_inside_is_placed_shape`, `C08_bounding_box_contains_object`, `C09_move`, `C09_rotate`, `C09_full_turn`, `C09_pose_history`, `C09_set_overrides`, `C01_round_trip_real`, `C02_nearest_cell`, `C02_ties_away`, `C02_total`, `C02_monotone`, `C03_grid_construction`, `C04_domain_points_are_cells`, `C04_requested_edge_is_outside`, `C05_surface_exists_iff`, `C05_surface_throws`, `C05_conversion_never_throws`, `C05_conversion`, `C05_directions`, `C05_same_cell_divides_by_zero`, `C06_box_sides_closed_loop`, `C07_centre_and_dims`, `C07_pad`, `C07_translate`, `C35_defined`, `C35_grid_point`, `C35_bilinear`, `C35_between`, `C36_at_half_partial`, `C36_bilinear_at_half_partial`, `C36_skewed_partial`, `C36_stagger_refuted`, `C59_defined`, `C59_node`, `C59_y_edge`, `C59_x_edge_partial`, `C59_x_edge_refuted`, `C74_object_refuted`, `C74_tfsf_refuted`, `C75_heat_balance`, `C75_never_gains`, `C42_coefficients`, `C42_simple_law`, `C42_simple_objects`, `C43_permeability_partial`, `C43_permeability_refuted`, `C44_debye_law`, `C44_debye_objects`, `C44_debye_kappa`, `C45_drude_law`, `C45_drude_objects`, `C46_lorentz_law_partial`, `C46_lorentz_law_refuted`, `C47_debye_poles_partial`, `C47_drude_poles_partial`, `C47_debye_order_partial`, `C47_drude_order_partial`, `C47_lorentz_order_partial`, `C47_poles_refuted`, `C48_local_partial`, `C48_local_refuted`, `C49_drude_lorentz`, `C56_traceless_partial`, `C56_overlap_refuted`, `C56_move_refuted`, `C85_mirror_refuted`, `C85_mirror_partial`, `C30_sums`, `C30_surface`, `C30_cylinder`, `C30_volume`, `C30_simulation`, `C31_same_time`, `C31_monitor`, `C31_not_recorded`, `C32_coefficients`, `C32_surfaces_alike`, `C32_cylinders_alike`, `C32_surface`, `C32_cylinder`, `C32_box`, `C32_self`, `C33_surface`, `C33_sign`, `C33_cylinder`, `C33_box`, `C33_outward`, `C33_surface_recorded`, `C33_cylinder_recorded`, `C34_surface_force`, `C34_surface_torque`, `C34_box_force`, `C34_box_torque`, `C34_cylinder_force`, `C34_cylinder_torque`, `C54_box_partial`, `C54_surface_linear_partial`, `C54_cylinder_linear_partial`, `C54_surface_sum_partial`, `C54_cylinder_sum_partial`, `C54_refuted`, `C58_volume_time`, `C58_surface_time`, `C58_volume`, `C58_surface`, `C58_middle`, `C58_either_end`, `C60_added_partial`, `C60_updates_partial`, `C60_readable_partial`, `C60_refuted`, `C47_order_partial`, `C47_order_refuted`, `C10_last_object_wins`, `C10_material_defined`, `C10_background`, `C11_rebuild_from_current_poses`, `C11_rebuild_equals_fresh`, `C13_add_object_partial`, `C13_add_object_refuted`, `C79_waves_travel`, `C84_balance`, `C84_heat`, `C84_driven`, `C61_programs_run`, `C62_simple`, `C62_main`, `C62_mie`, `C62_mie_simple`, `C62_mie_drude`, `C62_force`, `C65_continuous`, `C65_source_spectrum`, `C66_incident_flux`, `C78_there_and_back`, `C78_reciprocity`, `C01_volume_real`, `C01_surface_real`, `C12_clip_keeps_points`, `C13_clip_points_refuted`, `C13_clip_points_partial`, `C53_made_refuted`, `C17_superposition`, `C17_superposition_of_states`, `C24_axes_exchange`, `C77_runs_back`, `C86_scene`, `C62_mie_spectra`, `C62_mie_simple_spectra`, `C62_mie_drude_spectra`, `C62_simple_spectra`, `C19_one_plane_wave_partial`, `C72_same_run`, `C72_stretches`, `C72_exceptions`, `C19_turned_partial`, `C19_turned_refuted`, `C18_dark_field_stays_dark`, `C22_pml_E_leaves_interior`, `C22_pml_H_leaves_interior`, `C22_interior_is_plain_yee`
* `ClassicalDedekindReals.sig_forall_dec`, `FunctionalExtensionality.functional_extensionality_dep` (3 theorems): `C30_times_increase`, `C34_reference`, `C72_adds_up`
<!-- axioms end -->

## 3. Plan per property

See `properties.jsonl` for the statements and `MANIFEST.json` for the theorem names and status. "R" = exact
reals, "any" = every scalar arithmetic, "b64" = IEEE binary64.

| id | model | method |
|---|---|---|
| C01 | GridM | R: algebra of round; b64: Flocq relative-error bounds |
| C02, C03, C04 | GridM | R: floor/ceil inequalities; witness for the failing half of C04 |
| C05 | VecM, GridM | case analysis; witness for the division by zero |
| C06, C07 | VecM | R algebra |
| C08, C09 | GeometryM | R: triangle inequality under rotation, trigonometry |
| C10, C11 | FieldM (paint) | loop invariants for the raster loop + C08 + C12 + monotone rounding |
| C12 | GridM | arithmetic |
| C13 | GridM, FieldM | refuted by witness; holds under the stated condition (`_partial`) |
| C14 | FieldM, PmlM | loop invariants on array sizes, any arithmetic; witness for small grids |
| C15 | FieldM, PmlM | loop invariants giving the closed form of every cell, any arithmetic |
| C16 | FieldM | induction on steps with the closed form of C15 |
| C17, C18 | FieldM | linearity of closed form, induction on steps; C18 also on b64 (refuted with zero layers, `_partial` for finite coefficients, and without that condition for simple materials and at least one layer cell, SpecDusk) |
| C19 | FieldM, TfsfM | invariant linking 2-D fields to the 1-D line, induction on steps; refuted for boxes given upper right corner first (SpecTurned), where an invariant of all calls shows that nothing is injected |
| C20 | FieldM | summation by parts in 2-D, for as long as the fields have not reached the PML |
| C21 | PmlM | R: exp bounds, induction over histories |
| C22 | PmlM, FieldM | invariant: memory rows of the edge cell stay 0 |
| C23 | PmlM on b64 | refuted: NaN for every libm; true part: finite and damping coefficients for every thickness of at least 1 |
| C24 | FieldM, PmlM | closed form of C15 |
| C25 | FieldM, TfsfM | refuted by reachable witnesses; `_partial` for histories that never reached the PML, with or without a TFSF source |
| C26 | FieldM | induction; b64 via exactness of n*2^k |
| C27, C28 | FieldM | simulation between two histories, any arithmetic |
| C29 | FieldM | loop lemma, any arithmetic |
| C30, C31, C32 | DftM | induction over the samples |
| C33, C34, C54 | MonitorM | algebra of sums |
| C35, C36 | InterpM | R algebra; C36 refuted unless dx = 1/2 |
| C37, C38 | ClockM, FieldM | induction over updates; C38 refuted by witness |
| C39, C57 | FieldM, H5M | induction over calls |
| C40, C41 | ClockM, FieldM | invariant over calls; C41 refuted |
| C42-C46 | MaterialM, PolarM | R `field`; C43, C46 refuted; C42 also in doubles, by the monotonicity of rounding (SpecSolid) |
| C47 | PolarM | refuted by witness (poles are taken one after the other); what the loop does solve is `_partial`; the single-pole case is C44/C45 |
| C48 | PolarM | any/R; Lorentz part refuted |
| C49 | MaterialM | R algebra on lists |
| C50, C51 | FieldM | invariants over histories |
| C52, C53 | FieldM | refuted: the outcome is `UB` for every input |
| C55 | NamesM | injectivity of decimal printing |
| C56 | FieldM, PolarM | refuted by witness |
| C58 | FieldM, MonitorM | loop lemma |
| C59 | InterpM | R algebra; the x-edge average of Hx is refuted |
| C60 | MonitorM, FieldM | sizes and positions of samples; refuted for cells longer than the layer is thick |
| C61 | FieldM, ReportM | invariant linking the state to a ledger of what the text of the program has made |
| C62 | ShippedM | C61 |
| C63, C64 | FieldM, ReportM, H5M | what each call adds to the file, and that nothing is taken away; any arithmetic |
| C65, C66 | DftM, FieldM, TfsfM | waveforms by their differential equations (with uniqueness); source spectrum and incident spectrum as Fourier sums, over the reals, any program around them |
| C67, C68 | GeometryM, MonitorM, FieldM | the box monitor around an object; tight bounding boxes (refuted for turned ellipses) |
| C69, C70, C71 | MonitorM, ReportM | far fields as outgoing waves; the far-field circle; dependence on the number of samples (refuted: the sum lacks the length of a piece) |
| C72 | TimerM | elapsed time and the report of the stop-watches |
| C73, C74 | FieldM, H5M | what an interruption or an exception leaves behind (C74 refuted for add and set_tfsf) |
| C75 | FieldM, PolarM | the summation by parts of C20 with the cell laws of C42, C44, C45 |
| C76 | FieldM | invariant of every primitive step, the magnetic coefficients being 1 and dt in every cell |
| C77 | FieldM | the two half steps solved for the earlier field; induction on the number of steps back |
| C78 | FieldM, PolarM | each run's step tested with the other run's field at the mirrored moment; symmetry of convolutions and summation by parts |
| C79 | FieldM | the step formulas clear of the layers, trigonometric identities, induction with shrinking margins; concavity of sin^2 of a square root |
| C80 | FreeM | unfolding; the refutation reuses C71: a result independent of the content cannot match two contents |
| C81 | ArraysM, MaterialM | the arrays read as a list of poles; refuted for unequal lengths |
| C82 | ConsoleM | induction on the program; the size shown is refuted |
| C83 | FieldM, PolarM | the cell laws of C42, C44, C45 summed with the phase factors (summation by parts in time); complex algebra and the triangle inequality |
| C84 | FieldM, PolarM | the cell laws of C42, C44, C45 multiplied by the mean field and summed over a rectangle; discrete summation by parts leaves the Poynting flux through its sides; a source is a current |
| C85 | FieldM, PmlM, PolarM | the cellwise step (FullStep) of a state and of its mirror image compared cell by cell; induction over updates; refuted at the side walls (src/field2.cpp:176-182 updates Hy in columns 1 to Nx-2 only) by two updates of an 8x8 grid with a lamp at (1,4) |
| C86 | FieldM, PmlM, PolarM | the cellwise step (FullStep) compared at a cell and its moved image: outside the layers the PML sums are unchanged; induction over updates with a square that shrinks by one cell per update |
| C87 | Float, GridM, VecM | one rounding of the quotient and of the product; monotone rounding and the C01 round trip give the domain; half-ulp bounds on 1/res and the product give the extent |
| C88 | Float, PmlM, FieldM | each rounded operation keeps a value within (1+u)^n - 1 of the exact one relative to a magnitude that never cancels; a step has at most 13 operations in sequence; induction over the steps; every source adds one operation (SpecDriven) |
Poynting's theorem on the grid; needs the laws of C42–C45 and C43 cell by cell and summation by parts

A property the code violates keeps its English statement; the theorem is then named `..._refuted` and carries a
witness, and the part that does hold is named `..._partial`.
