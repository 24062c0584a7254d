{
 "C01": "Exact reals and IEEE binary64 (any normal cell size between 2^-1022 and 2^990).",
 "C04": "The second theorem proves the stated negative half: the requested far edge is outside the arrays.",
 "C05": "The tangent clause needs fewer than 46341 cells: beyond that the int squared norm overflows (modelled as undefined behaviour).",
 "C13": "Refuted on every grid: the right and bottom edges are not clipped (src/grid.cpp:58-72). The partial theorem covers boxes that do not stick out there.",
 "C16": "Any arithmetic; the radius is n rather than n+1 cells, and everything at the cell agrees (fields, PML memories, dispersive currents, copies of Ez). Includes media and sources.",
 "C17": "Exact reals; fields, PML memories, dispersive currents and copies of Ez add up. All media; the second theorem starts from arbitrary states and allows a TFSF wave in one of the runs.",
 "C18": "Over exact reals proved for all reachable states (any public calls, thrown and caught exceptions included); memories, previous Ez copies and currents are shown zero too (C18_dark_field_stays_dark). In double arithmetic, for any exp/sin/cos/pow, proved for every run without exceptions whose grid, PML and material coefficients are finite and whose divisors are neither zero nor NaN (C18_double_partial), and refuted without that condition: pml_thickness 0 turns a source-free field into NaN (C18_double_refuted). For simple materials with eps >= 1 and conductivity >= 0, a resolution in [2^-300, 2^300] and pml_thickness >= 1 the condition on the coefficients is itself proved, so every run of calls without sources stays at zero (C18_solid_partial). Not covered in doubles: runs that continue after a caught exception.",
 "C19": "Refuted as stated: a box given by its upper right corner first is accepted, but the loops of updateD and updateH (src/tfsf.cpp:83-105) are then empty and nothing is injected; shown by a run (C19_turned_refuted) and, for every such box, waveform, object list and call sequence, by C19_turned_partial. True part: every box clear of the PML whose first corner is the lower left one, every waveform and every number of steps (C19_one_plane_wave_partial). Over the reals (rounding would break the exact cancellation). Monitors and output calls may run at any time; the grid and its vacuum are otherwise untouched.",
 "C20": "Over the reals. The initial field is arbitrary: a source-free reachable state is dark, so the arrays Ez, Hx, Hy are written by hand (poke). The hypothesis that the layers have not been reached is off_layers at every prefix of the run; it is met by any field that starts further than the number of steps from the layers (finite speed, C31/C42), as the example shows.",
 "C21": "Exact reals, every grid with pml_thickness >= 1; coefficients in every reachable state, memory bound along every run (layers of opposite sides not overlapping).",
 "C22": "Exact reals, every grid with pml_thickness >= 1; corrections vanish for arbitrary field contents, and update() is the plain Yee formula at interior cells that no source drives and the TFSF source does not correct (for Ez: without dispersive media).",
 "C23": "False: pml_thickness 0 makes g_pml 1, so the grading divides 0 by 0. In binary64, for every libm obeying C's NaN rules for exp and pow, the coefficient be_x[1] is NaN in every reachable state and n updates turn all interior cells within n cells of the edge into NaN (C23_zero_thickness_refuted). True part, also in binary64 (C23_usable_partial): with thickness at least 1, resolution from 2^-300 to 2^300 and any libm whose exp of a non-positive number is in [0,1] and whose pow is right up to a factor 2, every coefficient of the layer that is read is finite, b is in [0,1], c is in [-1,0], |c| <= (1-b)(1+2^-53), and the stretched cell size is dx.",
 "C24": "Exact reals, any grid shape, all media, sources transposed too; no TFSF (its wave travels along y only).",
 "C25": "Refuted as stated: clear_fields() does not clear the PML memories (nor the last copies of Ez, which Lorentz media read), shown over the reals by a run whose Hx differs from the fresh one. Partial: in any arithmetic, for every history, with or without a TFSF source, if the PML memories are zero (and, with Lorentz media, the last copy of Ez), the restarted simulation has exactly the fields of the fresh one at every cell after every number of updates.",
 "C26": "Any arithmetic for the counter; exact reals and IEEE binary64 (resolution a power of two) for the clock.",
 "C27": "All call sequences that run from a fresh field, any scalar arithmetic; erasure covers adding, removing, writing monitors and time monitors and get_box_monitor.",
 "C28": "Every state; also calls that throw, and catching callers. The program form erases output and monitor calls together.",
 "C29": "The response is tp_shape at ph_t; a line source needs ends in different cells (a zero-length line is the division by zero shown elsewhere). The only other change is the source's own end-time bookkeeping (src_core equal).",
 "C30": "Over the reals. Rank 0 occurs only inside point monitors, whose update is always undefined (C53); C30_sums is stated on the dft map itself and covers any number of samples. The samples of a surface monitor are the fields interpolated at the edge middles, with Ez averaged in time; C30_simulation says which fields and times a simulation feeds.",
 "C31": "",
 "C32": "Same shape is not an assumption about results: monitors attached to one grid with the same region, kind and frequencies always have it (the two _alike theorems).",
 "C33": "recorded = the components flux() reads are stored with n samples each; C33_surface_recorded and C33_cylinder_recorded show that attached monitors of the right kind have that.",
 "C34": "The arm of a surface torque is measured from the surface's own end point a (not from its grid cell), plus (i+1/2) dx along the surface, as the code does.",
 "C36": "Refuted for every cell size except 1/2, for both components, on every array and at every cell (src/field2.cpp:258-259 shift by dx cells). Proved for dx = 1/2, and the place where each stored value is found at any cell size.",
 "C38": "Refuted: the unsigned period is converted to int (time_monitor.h:12-14); above 2^31 the monitor writes every 2^32-k updates, and at 2^31 it never writes and the counter overflows at update 2^31-1. The partial theorems give the actual behaviour for every k.",
 "C39": "Time monitors triggered by update() call the same write; the schedule is C38. Row-major order over the selected cells; a volume monitor's second corner is replaced by a + |b - a|. C39_interrupted: a time-monitor write that fails half way leaves the rows written before it. C39_write_E: the row that writeE adds.",
 "C40": "C40_programs covers whole programs, with the results of the monitors and write_monitor among the calls.",
 "C41": "Refuted: a rejected write_field or update leaves a stop-watch running, so the next one raises runtime_error. Partial: what a rejected write_field and a rejected update leave unchanged; an update ended by a time monitor has completed its step and leaves the stop-watches at rest.",
 "C42": "Interior cells that no source drives and the TFSF source does not correct; any program that does not move objects or clear the fields (object-level form), or any reachable state (cell-level form). A Lorentz object anywhere changes every cell (see C48), so the object-level form excludes it. In double arithmetic (C42_damped_double, C42_lossless_double): for eps at least 1 and conductivity at least 0, all below 2^300, Ca lies in [-1, 1] and Cb in [0, dt]; without conductivity Ca is exactly 1 and Cb is dt/eps rounded once.",
 "C43": "Refuted: mu is stored but Da = 1 and Db = dt ignore it (simple_material.cpp:34-40). The partial theorem: every cell obeys Faraday's law with mu = 1 (outside the PML, undriven, not corrected by the TFSF source).",
 "C44": "Scope as for C42. only_in: every object containing the cell is of this material (overlaps are C56).",
 "C45": "Scope as for C42. only_in as for C44.",
 "C46": "Refuted: a pole adds Ca_prev*E(n-1) with the wrong coefficient (lorentz.cpp:51-54 divides by 2*eps+s, Ca and Cb by 2*eps+s/2). The partial theorem gives the exact error term; the resonator equation itself holds.",
 "C47": "Refuted twice. (1) Pole k's current is computed from the field before the later poles have acted (update_J loops). (2) For Lorentz media the order of the poles changes the field of a whole run (C47_order_refuted, two steps after the object is added), because the term Ca_prev*prev2E is added once per pole. Partial: E' solves the summed equations exactly with exact pole currents Jx, the stored current differs by a given sum; one step is independent of the pole order (Debye, Drude, Lorentz); for Debye and Drude media every field cell and every monitor is the same after any program, whatever the order of the poles (over the reals).",
 "C48": "Refuted for Lorentz media: the Ca_prev term acts on every cell. Partial: Debye, Drude and simple objects.",
 "C49": "The mapped poles have resonance 1e-20, so alpha differs from the zero-resonance limit by (1e-20 dt)^2; delta and beta are exact.",
 "C50": "Families are Debye, Drude, Lorentz; two materials of different families under one name keep separate currents, but only the first is written to the file.",
 "C52": "Refuted: the empty file name dereferences the null outFile pointer. The partial theorem covers every other name.",
 "C53": "Refuted: the sampling functions hold a dangling reference (point_monitor.h:47-64), so every update is undefined.",
 "C54": "Refuted: surface_monitor.h uses H_t + (p.n) E_z/|p|, cylinder_monitor.h H_t - (p.n) E_z/|p|, with the same sign convention for normal and tangent, so no common integrand exists. Partial: the box is the sum of its sides, linearity, and the exact sums.",
 "C55": "Per class (object, material, source, monitor, time_monitor). An explicit name may equal an automatic one, and monitors and time monitors share the prefix monitor_; the claim is about automatic names of one class. 2^31 automatic creations overflow the int counter (create_overflow).",
 "C56": "Refuted twice: insert_object only ever writes strengths inside the new object, so covered and vacated cells keep theirs. Partial: all dispersive objects containing the cell are of the owner's material.",
 "C57": "tracks is a separate specification folding over the calls.",
 "C58": "The volume monitor theorems need no a<=b: the samples start at a's cell and go up; with a<=b that is exactly the block.",
 "C59": "Refuted for to_xgrid(Hx): the four averaged cells (src/field2.cpp:291) surround ((i-1/2)dx, (j+1)dx). Proved for the other eight combinations.",
 "C60": "Refuted: interpolate shifts Hx and Hy by dx in cell units (C36), so when dx exceeds the layer's cell count an Hx monitor on the lowest interior row reads a negative row. Partial: handy grids (dx <= number of layer cells, at most 46341 cells per side so that index products fit an int).",
 "C61": "Over exact reals. The rules (SpecProgram.v: allowed, enters, well_formed) are stated on the program text alone.",
 "C62": "Over exact reals; names are parameters, with the names the counters give as an example. The frequencies that four of the programs leave in their files are stated too.",
 "C63": "Every program, with or without catching exceptions, in any number type. The result of a clash is an exception or undefined behaviour, never success.",
 "C64": "Every program in any number type; records of arguments, of results (flux, force, torque, far field, transforms) and of the total-field source, and the layout of a force. Field and time-monitor rows are C39, dynamic rows C57. C64_results names the number each result holds, by quantity and kind of monitor (SpecResult).",
 "C65": "ODE characterisations of the waveforms with uniqueness; the spectrum theorem is over the reals, for programs without clear_fields after the source is added (clear_fields restarts the clock but keeps the sums).",
 "C66": "Over the reals; later programs may contain anything but clear_fields and a second set_tfsf. The plane wave is the one C19 shows to fill the region (incident in SpecTfsf.v).",
 "C67": "Every state; the pose is the one at the moment of the call. The exactness part excludes turned ellipses (C68).",
 "C68": "Refuted: geometry::get_bounding_box turns the box of the unturned ellipse, so the box of a turned ellipse is too large (by sqrt 2 for a circle given as an ellipse, turned by 45 degrees). Partial: cylinders of positive radius, blocks at any angle. Ellipses with nonzero axes: the smallest box at any angle in closed form; the code's box is that box if and only if the angle is a quarter turn, and is never more than sqrt 2 times too long.",
 "C69": "Over the reals. Surfaces and cylinders with recorded contents of any kind, boxes after any run.",
 "C70": "Over the reals. N = 1 gives the single angle 2 pi and N = 0 an empty table (Eigen LinSpaced).",
 "C71": "Refuted: surface_monitor::ntff (and cylinder_monitor::ntff) add the samples without the length of a piece, so halving dx doubles the far field. Partial: the exact value, proportional to the number of pieces.",
 "C72": "Over the reals; std::chrono::system_clock is assumed not to go back (it may, when the system time is set). Writing monitors, time monitors and objects is not measured as HDF5 output and shows under Other.",
 "C73": "All scalar types. 'lasting' are all calls but update, the calls that add a row to an existing table, and get_box_monitor (which is add of the monitor it makes).",
 "C74": "The statement is false for two calls. C74_object_refuted: an object rejected for its name has already painted its cells. C74_tfsf_refuted: a rejected second set_tfsf has already replaced the first source. True parts, for all scalar types: C74_unchanged_partial (sources, monitors, time monitors, box monitors of objects, results: only the file can change), C74_object_partial and C74_tfsf_partial (all that stays in those two calls). update and the calls that write fields are in C41.",
 "C75": "Proved over the reals for programs that build the scene without move/clear_fields, Lorentz media excluded (their update is not Ampere's law, C46). The media must not touch the outermost cells. Multi-pole media are excluded because the poles of one cell read the field in the middle of its correction (C47).",
 "C76": "Over the reals, for programs that catch every exception. Squares in the absorbing layers are excluded: there the layer memories enter the two components separately.",
 "C77": "Over the reals. Starting fields are written by hand (the members Ez, Hx, Hy are public); the run is followed while the fields vanish in and next to the absorbing layers.",
 "C78": "Over the reals, for media of one pole and without Lorentz media. The two flashes lie in simple materials; the media between them may be dispersive. Valid until one of the fields touches the absorbing layers.",
 "C79": "Over the reals. The time step is half a cell, as Grid2D sets it. The starting fields are written by hand (the members Ez, Hx, Hy are public).",
 "C80": "Refuted: the sum in compute_ntff_point is commented out, so it returns zero whatever was recorded; compute_ntff_sphere has an empty body (modelled as undefined); the lambdas of surface_monitor::locate keep a reference to a dead local.",
 "C81": "Refuted: the constructors check nothing; with unequal lengths the first coefficient asked for (hence adding the object) is undefined, and drude_lorentz can merge two malformed materials into one that looks well formed (a missing gamma of one is filled by a spare gamma of the other). True part: with equal lengths every function of the array classes is that of the pole lists used in the rest of the model.",
 "C82": "Refuted for the size: display_info prints dx*Nx and dx*Ny (src/field2.cpp:114, 116), one cell more than grid.Lx and grid.Ly on every grid. True parts: dx, dt, the printed size is the requested one rounded up to whole cells, and the progress lines of every program.",
 "C83": "Exact reals. The media are those of C42, C44 and C45 (a Lorentz medium does not obey its law, C46; several poles, C47). The bound is in terms of the field and current left in the cell at the two ends of the run, so it is small when a pulse has come and gone.",
 "C84": "Exact, real arithmetic. The sides take Ez as mean over the step and H half a cell outside. Lorentz media are left out, see C47. C84_driven adds the work of sources inside the rectangle.",
 "C85": "Refuted: Hy of column 0 (left of the first updated Ez column) is never updated while Hy of column Nx-2 (right of the last one) is, so the left wall is a magnetic and the right wall an electric mirror; a lamp at cell (1,4) of an 8x8 grid and its image at (6,4) give different Ez after two updates. C85_mirror_partial proves the claim for all runs in which no light has reached the two outermost columns.",
 "C86": "Proved for every instance of Num, hence for doubles. The example has a lamp in a 64x64 grid and in a 32x32 grid with a thicker layer.",
 "C87": "Holds for every choice of libm. C87_count_case (0.1 at resolution 10) shows that the count can be one less than the exact product rounded up; C87_edge_inside_case (0.07 at resolution 100) shows that the far edge can be a cell, whereas over exact numbers it never is (C04).",
 "C88": "The exact step uses the doubles' own coefficients (Ca, Cb, the PML b, c and kappa times dx as stored) and, for C88_driven and C88_driven_short, the source values as computed (waveform of the accumulated double time), so errors made when computing those are not part of the bound. Any list of point and line sources is covered; each adds one rounding per step. Dispersive media and the total-field box are excluded. C88_program and C88_program_short ask nothing of the state: they start at the constructor, allow any calls that set up simple materials (eps at least 1, conductivity not negative) and sources, and derive the bounds on the coefficients; of libm they only ask loose_libm (SpecLoose)."
}