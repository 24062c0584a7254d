{"id": "C01", "title": "Grid index round trip", "statement": "For every cell index pair that fits a C++ int, grid.to_grid(grid.to_real(p)) == p, in exact arithmetic and also with every multiplication and division rounded to IEEE double.", "quantifier": "every positive cell size (every normal double far from overflow/underflow) and every 32-bit cell index", "why_tests_cant": "the rounding error depends on dx and the index; 2^64 index pairs times all resolutions cannot be sampled", "anchors": ["src/grid.cpp: grid_properties::to_grid", "src/grid.cpp: grid_properties::to_real"]}
{"id": "C02", "title": "Real-to-grid conversion is the nearest cell", "statement": "grid.to_grid(p) is a cell whose position is within half a cell of p in each coordinate, a point exactly half way goes to the cell further from the origin, and the map is monotone in each coordinate.", "quantifier": "every real point whose cell index fits an int, every positive cell size", "why_tests_cant": "continuum of points, including the exact ties", "anchors": ["src/grid.cpp: grid_properties::to_grid", "include/grid.h: grid_properties"]}
{"id": "C03", "title": "Grid construction", "statement": "grid_properties(Lx,Ly,res,pml) makes Nx=ceil(Lx*res) cells of size dx=1/res, reports the length actually covered Lx'=dx*(Nx-1) with Lx-dx <= Lx' < Lx, uses a time step dt=dx/2 that satisfies the 2-D Courant limit dt < dx/sqrt(2), and stores one more PML cell than asked for.", "quantifier": "every positive length and resolution", "why_tests_cant": "real-valued inputs with a ceiling discontinuity", "anchors": ["src/grid.cpp: grid_properties::grid_properties"]}
{"id": "C04", "title": "Every point of the reported domain is a valid cell", "statement": "Every point of grid.domain() converts to a cell index inside [0,Nx-1]x[0,Ny-1], so a source or monitor placed there never indexes outside the field arrays; the same is false of the length the user asked for.", "quantifier": "every grid and every point of its domain", "why_tests_cant": "continuum of points; the failure sits exactly on the far edge", "anchors": ["include/grid.h: domain", "src/grid.cpp: to_grid", "src/sources/point_source.cpp: pulse"]}
{"id": "C05", "title": "Surface construction and conversion", "statement": "A surface can be built from two end points exactly when they share a coordinate (otherwise invalid_argument); converting a surface to the grid never throws; the grid tangent is a unit step along one axis whenever the two ends fall in different cells; when they fall in the same cell the conversion divides an integer by zero.", "quantifier": "every pair of end points and every grid", "why_tests_cant": "continuum of end points and the measure-zero degenerate cases", "anchors": ["include/vec.h: surface_template", "src/grid.cpp: grid_properties::to_grid(const surface&)"]}
{"id": "C06", "title": "Box sides form a closed outward-oriented loop", "statement": "The four sides returned by volume::get_surface, in the order box_monitor uses them, join end to start into one closed loop around the box; every side's normal is a unit vector perpendicular to its tangent and points out of the box, and the side lengths sum to the perimeter.", "quantifier": "every volume with non-degenerate, ordered corners", "why_tests_cant": "orientation errors cancel for symmetric test boxes; must hold for all corners", "anchors": ["include/vec.h: volume_template::get_surface", "include/monitors/box_monitor.h: box_monitor"]}
{"id": "C07", "title": "Volume helpers", "statement": "A volume built from centre and side lengths has that centre and those dimensions; pad(s) keeps the centre and grows each dimension by 2s; translate(p) moves the centre by p and keeps the dimensions.", "quantifier": "every centre, side length, padding and shift", "why_tests_cant": "real-valued inputs", "anchors": ["include/vec.h: volume_template"]}
{"id": "C08", "title": "Bounding box contains the object", "statement": "Every point for which object::inside is true lies in the box returned by object::get_bounding_box, for cylinders, ellipses and blocks at any position and rotation.", "quantifier": "every shape dimension (non-negative radius), position, rotation angle and point", "why_tests_cant": "continuum of poses; an under-estimate only shows at particular angles", "anchors": ["src/object.cpp: inside, get_bounding_box", "src/geometry/geometry.cpp: get_bounding_box", "src/geometry/cylinder.cpp", "src/geometry/ellipse.cpp", "src/geometry/block.cpp"]}
{"id": "C09", "title": "Objects move rigidly", "statement": "Moving a dynamic object by d moves its inside region by d; rotating it rotates the region about its position; rotate/move calls compose additively; rotating by a full turn changes nothing; set_position and set_theta override.", "quantifier": "every geometry, pose, point and sequence of moves and rotations", "why_tests_cant": "continuum of poses and all call sequences", "anchors": ["src/dynamic_object.cpp", "src/object.cpp: inside"]}
{"id": "C10", "title": "Material painting: the last object wins", "statement": "After any sequence of add<object> calls on a fresh field, the update coefficients of every grid cell are those of the most recently added object that contains the cell's point, and those of the background medium where no object contains it; no other cell changes.", "quantifier": "every list of objects (any shapes, poses, materials) and every cell", "why_tests_cant": "the bounding-box, rounding and clipping shortcuts must never drop or add a cell, for all shapes and poses", "anchors": ["src/field2.cpp: insert_object, insert_object_helper, update_object_material_grid, clear_materials", "src/grid.cpp: clip"]}
{"id": "C11", "title": "update_material_grid re-derives the material map", "statement": "After any history of adds, moves and rotations, update_material_grid() leaves exactly the coefficient map that a fresh field with the current objects in the same order would have.", "quantifier": "every starting state and every list of objects", "why_tests_cant": "histories of moves are unbounded; stale cells only appear for particular overlaps", "anchors": ["src/field2.cpp: update_material_grid, clear_materials, update_object_material_grid"]}
{"id": "C12", "title": "Clipping never loses an in-grid cell", "statement": "grid.clip(box) contains every in-grid cell that the box contains.", "quantifier": "every integer box and every grid", "why_tests_cant": "all boxes, including those overlapping each edge and corner", "anchors": ["src/grid.cpp: grid_properties::clip(const ivolume&)"]}
{"id": "C13", "title": "Clipping confines a box to the grid", "statement": "grid.clip(box) only contains cells of the grid, so adding an object that sticks out of the domain never touches memory outside the coefficient arrays.", "quantifier": "every box and every object position", "why_tests_cant": "only particular edges (right, bottom) fail, so tests on the others pass", "anchors": ["src/grid.cpp: grid_properties::clip", "src/field2.cpp: update_object_material_grid"]}
{"id": "C14", "title": "Time stepping never indexes out of range", "statement": "On any grid with at least pml_thickness+3 cells in each direction, a call of update() on a field with in-range sources never reads or writes outside an array; on a smaller grid constructing the field or the first update does, except on the 2x2 grid with pml_thickness 0, which has no interior cell.", "quantifier": "every grid size, PML thickness and field content", "why_tests_cant": "index arithmetic at the four PML edges for all sizes", "anchors": ["src/field2.cpp: update", "src/pml.cpp: pml, set_scaling_factors, update_E, update_H"]}
{"id": "C15", "title": "One update is the Yee step with CPML", "statement": "For a field without dispersive materials, sources or TFSF, update() replaces every interior Ez, Hx, Hy by the leap-frog Yee formula with the material coefficients plus the four convolutional-PML corrections of its layer, and leaves every boundary cell of the three fields unchanged, whatever the arithmetic (exact or IEEE).", "quantifier": "every grid whose PML layers do not overlap, every field content, every coefficient map, every scalar arithmetic", "why_tests_cant": "all field contents and sizes; in-place loops could read already-updated neighbours", "anchors": ["src/field2.cpp: update", "src/pml.cpp: update_E, update_H"]}
{"id": "C16", "title": "Finite propagation speed", "statement": "After n updates the fields at a cell depend only on the initial fields, memory variables and coefficients within n+1 cells of it: two simulations that agree there agree at the cell after n updates, bit for bit.", "quantifier": "every n, every pair of initial states, every cell, every scalar arithmetic", "why_tests_cant": "relates two arbitrary runs; unbounded in n", "anchors": ["src/field2.cpp: update", "src/pml.cpp"]}
{"id": "C17", "title": "Superposition", "statement": "The update is linear: running with the union of two source lists gives the sum of the fields of running with each list alone, at every step.", "quantifier": "every material map, every pair of source lists and initial fields, every number of steps", "why_tests_cant": "unbounded runs and arbitrary sources", "anchors": ["src/field2.cpp: update", "src/sources/point_source.cpp", "src/sources/line_source.cpp", "src/pml.cpp"]}
{"id": "C18", "title": "A dark field stays dark", "statement": "With no sources and no TFSF, a freshly constructed field with any objects (including dispersive ones) stays identically zero after any number of updates.", "quantifier": "every grid, object list and number of updates", "why_tests_cant": "unbounded number of steps", "anchors": ["src/field2.cpp: update", "src/materials/*_polarization.cpp"]}
{"id": "C19", "title": "TFSF injects exactly one plane wave and leaks nothing", "statement": "In a vacuum field with set_tfsf on a box clear of the PML, at every step Ez inside the box equals the 1-D incident wave at that row, Hx inside equals the incident H, Hy is zero, and every field outside the box is exactly zero, for any waveform.", "quantifier": "every box clear of the PML, every waveform, every number of steps", "why_tests_cant": "exact cancellation at every boundary cell and corner for all steps and waveforms", "anchors": ["src/tfsf.cpp: pulse, updateD, updateH", "src/field2.cpp: update"]}
{"id": "C20", "title": "Energy conservation and stability away from the PML", "statement": "While the fields have not reached the PML, a lossless source-free field conserves the leap-frog energy sum(eps*Ez^2 + Hx*Hx_prev + Hy*Hy_prev) exactly, and with dt=dx/2 and eps>=1 that energy bounds the fields, so they cannot grow.", "quantifier": "every field content, every permittivity map, every number of steps before the PML is reached", "why_tests_cant": "stability is a statement about all initial data and unbounded time", "anchors": ["src/field2.cpp: update", "src/grid.cpp: dt", "src/materials/simple_material.cpp"]}
{"id": "C21", "title": "PML memory is absorbing and bounded", "statement": "For every grid with pml_thickness >= 1, each recursive PML coefficient the update uses satisfies 0 < b < 1, -1 < c <= 0 and |c| <= 1-b, so each memory variable never exceeds the largest field difference quotient it has been fed.", "quantifier": "every resolution, every PML thickness >= 1, every sequence of field values", "why_tests_cant": "all resolutions and unbounded histories", "anchors": ["src/pml.cpp: pml, b_func, c_func, a_func, k_func, sig_func, update_E, update_H"]}
{"id": "C22", "title": "The PML does not touch the interior", "statement": "In every cell of grid.interior() the PML corrections are exactly zero at every step, so the interior obeys the plain Yee update.", "quantifier": "every grid, every field history", "why_tests_cant": "must hold for every step and the edge row of the layer", "anchors": ["src/pml.cpp: update_E, update_H", "include/grid.h: interior"]}
{"id": "C23", "title": "Zero PML thickness", "statement": "A grid built with pml_thickness 0 gives usable (finite) update coefficients.", "quantifier": "every grid with pml_thickness = 0, IEEE double arithmetic", "why_tests_cant": "depends on NaN propagation through every libm implementation", "anchors": ["src/pml.cpp: a_func, sig_func, b_func, c_func", "src/grid.cpp: grid_properties (pml_thickness+1)"]}
{"id": "C24", "title": "x/y exchange symmetry", "statement": "Transposing every field, coefficient and memory array of a square-PML simulation (Ez(i,j)->Ez(j,i), Hx->-Hy, Hy->-Hx) and updating gives the transpose of updating the original: neither axis is privileged.", "quantifier": "every field content, any grid shape, any number of steps", "why_tests_cant": "relates two arbitrary runs", "anchors": ["src/field2.cpp: update", "src/pml.cpp"]}
{"id": "C25", "title": "clear_fields restarts the simulation", "statement": "After clear_fields() and update_material_grid() the simulation evolves exactly as a freshly built one with the same objects and sources.", "quantifier": "every history before the call and every number of steps after it", "why_tests_cant": "left-over memory only shows for particular histories (fields that reached the PML, Lorentz media)", "anchors": ["src/field2.cpp: clear_fields, update_material_grid", "src/materials/*_polarization.cpp: reset", "src/pml.cpp"]}
{"id": "C26", "title": "Simulation clock", "statement": "After n updates tStep = n and t = n*dt (exactly in real arithmetic; exactly in IEEE double when dx is a power of two and n < 2^53); the step counter overflows at the 2^31-th update.", "quantifier": "every n, every history of non-clearing calls", "why_tests_cant": "unbounded n and floating-point accumulation", "anchors": ["src/field2.cpp: update, clear_fields"]}
{"id": "C27", "title": "Monitors are passive", "statement": "Adding or removing any monitors and time monitors never changes the fields: the fields after any call sequence equal those of the same sequence with all monitor calls erased, bit for bit, provided the sequence runs.", "quantifier": "every sequence of API calls, every set of monitors, every scalar arithmetic", "why_tests_cant": "relates two arbitrary histories", "anchors": ["src/field2.cpp: update, add", "include/monitors/*.h", "src/time_monitors/*.cpp"]}
{"id": "C28", "title": "Output calls do not change the physics", "statement": "write_field, writeE, writeH, time_monitor::write and dynamic_object::write_current leave fields, coefficients, sources and time unchanged.", "quantifier": "every state and every sequence of output calls", "why_tests_cant": "arbitrary states", "anchors": ["src/field2.cpp: write_field, writeE, writeH", "src/dynamic_object.cpp: write_current", "src/time_monitors/time_monitor.cpp"]}
{"id": "C29", "title": "Sources are additive and local", "statement": "A point source adds response(t) to exactly one cell of its component; a line source adds response(t) once to each of the |b-a| cells from its first end up to but excluding its second, always terminates, and changes nothing else.", "quantifier": "every source position, every line in either direction, every field content", "why_tests_cant": "all lines and both directions; termination of the stepping loop", "anchors": ["src/sources/point_source.cpp: pulse", "src/sources/line_source.cpp: pulse"]}
{"id": "C30", "title": "A DFT monitor holds the exact running Fourier sum", "statement": "After any sequence of updates a monitor's stored value at sample i and frequency f is sum_m g_m(i)*cos(2*pi*f*t_m) and sum_m g_m(i)*sin(2*pi*f*t_m) over the update times t_m.", "quantifier": "every sequence of samples and increasing times, every frequency list, ranks 0, 1 and 2", "why_tests_cant": "unbounded sequences", "anchors": ["src/dft.cpp: dft<0>::update, dft<1>::update, dft<2>::update"]}
{"id": "C31", "title": "A DFT update is idempotent per time stamp", "statement": "Updating a DFT twice with the same time stamp counts the sample once; and because the time stamp of a monitor survives clear_fields, a one-step run repeated after clear_fields is silently not recorded.", "quantifier": "every monitor state and sample", "why_tests_cant": "history dependence through a stored time stamp", "anchors": ["src/dft.cpp: update", "src/field2.cpp: clear_fields"]}
{"id": "C32", "title": "Monitor subtraction", "statement": "m -= other replaces every accumulated Fourier coefficient by the difference (for box monitors on all four sides), so subtracting an incident run leaves exactly the scattered coefficients; m -= m leaves zero, and subtraction of equal-shaped monitors never fails.", "quantifier": "every pair of monitors with the same keys and shapes", "why_tests_cant": "all accumulated contents", "anchors": ["include/dft.h: operator-=", "include/monitors/rank_monitor.h", "include/monitors/box_monitor.h"]}
{"id": "C33", "title": "Flux is the outward Poynting flux", "statement": "flux() of a surface, box or cylinder monitor equals the sum over its samples of Re(E x conj(H)).n*dA with n the outward normal (the surface's signed normal), for every accumulated content; box flux is the sum over its four sides and flips sign with the orientation.", "quantifier": "every accumulated content, every orientation", "why_tests_cant": "sign conventions per side must hold for all contents", "anchors": ["src/monitors/flux.cpp: compute_flux", "include/monitors/surface_monitor.h: flux", "include/monitors/box_monitor.h: flux", "include/monitors/cylinder_monitor.h: flux"]}
{"id": "C34", "title": "Force and torque are the Maxwell stress integrals", "statement": "force() equals the sum of T.n*dA with T_ij = Re(H_i conj(H_j)) - delta_ij(|H|^2+|E|^2)/2 in Cartesian components, torque() the sum of r x (T.n)dA, and changing the reference point c to c' changes the torque by (c-c') x force.", "quantifier": "every accumulated content and reference point", "why_tests_cant": "frame and sign conventions per side must hold for all contents", "anchors": ["src/monitors/force.cpp: compute_force, compute_torque", "include/monitors/surface_monitor.h: partial_force, partial_torque", "include/monitors/box_monitor.h: force, torque", "include/monitors/cylinder_monitor.h: force, torque"]}
{"id": "C35", "title": "Ez interpolation", "statement": "interpolate(Ez,p) returns the stored value at a grid point, reproduces every field that is bilinear in x and y, and always lies between the smallest and largest of the four surrounding values.", "quantifier": "every point whose surrounding cells exist, every field content", "why_tests_cant": "continuum of points", "anchors": ["src/field2.cpp: interpolate"]}
{"id": "C36", "title": "H interpolation honours the half-cell stagger", "statement": "interpolate(Hx,p) at the staggered position of Hx(i,j), i.e. (i*dx,(j+1/2)*dx), returns Hx(i,j); likewise Hy at ((i+1/2)*dx, j*dx).", "quantifier": "every cell size and every cell", "why_tests_cant": "the shift is written in length units but used in cell units, so it is right at one resolution only - the one the tests use", "anchors": ["src/field2.cpp: interpolate"]}
{"id": "C37", "title": "Time-monitor cadence", "statement": "A time monitor built with every(k), 1 <= k <= 2^31-1, appends one record at exactly the updates k, 2k, 3k, ... (floor(n/k) records after n updates); every(0) never writes.", "quantifier": "every k and every number of updates", "why_tests_cant": "unbounded number of updates", "anchors": ["include/time_monitors/time_monitor.h: every::check_repeat", "src/time_monitors/time_monitor.cpp: write_if_ready"]}
{"id": "C38", "title": "Time-monitor cadence for huge periods", "statement": "every(k) behaves as documented for every unsigned int k.", "quantifier": "every unsigned int k", "why_tests_cant": "needs 2^31 updates or inputs beyond the signed range", "anchors": ["include/time_monitors/time_monitor.h: every"]}
{"id": "C39", "title": "Recorded rows are faithful snapshots", "statement": "Each write_field/writeE/writeH call and each time-monitor write appends exactly one row per selected component holding the field values at that moment in row-major order over the selected cells; earlier rows are never changed.", "quantifier": "every sequence of calls, every field content, every region", "why_tests_cant": "unbounded sequences", "anchors": ["src/field2.cpp: write_field, create_fields_dataset", "src/time_monitors/*.cpp: write_impl", "src/time_monitors/time_monitor.cpp: write"]}
{"id": "C40", "title": "Timers never misfire in normal operation", "statement": "Any sequence of update, write_field (with a single component), write_monitor and clear calls that does not throw for another reason never raises the stop-watch errors, and leaves every stop-watch except the total stopped.", "quantifier": "every sequence of API calls", "why_tests_cant": "all histories", "anchors": ["include/timer.h: timer", "src/timer.cpp", "src/field2.cpp: update, write_field, write_monitor"]}
{"id": "C41", "title": "A rejected call leaves the field usable", "statement": "After write_field or update throws invalid_argument (unsupported component), later valid calls work as before.", "quantifier": "every state and every later call", "why_tests_cant": "needs exception paths followed by further calls", "anchors": ["src/field2.cpp: write_field, update", "include/timer.h: timer::begin"]}
{"id": "C42", "title": "Simple material update law", "statement": "For eps>0, conduc>=0 the coefficients of simple_material make the update solve eps*(E'-E)/dt + conduc*(E'+E)/2 = curl H exactly, with |Ca|<=1 and Cb>0; conduc=0 gives Ca=1.", "quantifier": "every eps>0, conduc>=0, dt>0 and field values", "why_tests_cant": "real-valued parameters", "anchors": ["src/materials/simple_material.cpp"]}
{"id": "C43", "title": "Permeability is honoured", "statement": "simple_material(eps,mu,...) makes the magnetic update solve mu*(H'-H)/dt = -curl E.", "quantifier": "every mu>0", "why_tests_cant": "an ignored parameter is invisible to tests that use the default", "anchors": ["src/materials/simple_material.cpp: Da, Db"]}
{"id": "C44", "title": "Debye medium obeys its equation", "statement": "With one pole, in every cell of a Debye object the update solves eps_inf*(E'-E)/dt = curl H - (J'+J)/2 together with tau*(J'-J)/dt + (J'+J)/2 = delta_eps*(E'-E)/dt exactly, with kappa in (-1,1).", "quantifier": "every parameter set with positive eps_inf, tau, delta_eps>=0 and all field values", "why_tests_cant": "real-valued parameters and states", "anchors": ["src/materials/debye.cpp", "src/materials/debye_polarization.cpp: update_J"]}
{"id": "C45", "title": "Drude medium obeys its equation", "statement": "With one pole, in every cell of a Drude object the update solves eps_inf*(E'-E)/dt = curl H - (J'+J)/2 together with (J'-J)/dt + gamma*(J'+J)/2 = omega^2*(E'+E)/2 exactly.", "quantifier": "every parameter set with positive eps_inf, gamma>=0 and all field values", "why_tests_cant": "real-valued parameters and states", "anchors": ["src/materials/drude.cpp", "src/materials/drude_polarization.cpp: update_J"]}
{"id": "C46", "title": "Lorentz medium obeys its equation", "statement": "With one pole, in every cell of a Lorentz object the update solves eps_inf*(E'-E)/dt = curl H - (J'+J)/2 with the discretised resonator equation; in particular a static field stays static.", "quantifier": "every parameter set and all field values", "why_tests_cant": "real-valued parameters and states", "anchors": ["src/materials/lorentz.cpp: Ca_prev", "src/materials/lorentz_polarization.cpp: update_J"]}
{"id": "C47", "title": "Multi-pole media obey their equation", "statement": "With several poles the update solves the same equations with J the sum of the pole currents, and the result does not depend on the order in which the poles are listed.", "quantifier": "every number of poles and every parameter set", "why_tests_cant": "interleaved in-place updates; needs symbolic reasoning over all poles", "anchors": ["src/materials/debye_polarization.cpp: update_J", "src/materials/drude_polarization.cpp: update_J", "src/materials/lorentz_polarization.cpp: update_J"]}
{"id": "C48", "title": "Dispersive media act only inside their objects", "statement": "Adding a dispersive object does not change the update of any cell outside all objects of that material.", "quantifier": "every state, every object, every cell outside it", "why_tests_cant": "needs all states; the Lorentz back term acts everywhere", "anchors": ["src/materials/debye_polarization.cpp", "src/materials/drude_polarization.cpp", "src/materials/lorentz_polarization.cpp: update_J"]}
{"id": "C49", "title": "drude_lorentz combines both media", "statement": "drude_lorentz(d,l) is a Lorentz medium with the poles of d then of l, whose update coefficients for the Drude poles equal the zero-resonance limit (delta = omega_p^2 dt^2/(1+gamma dt/2)) exactly in real arithmetic; the background permittivity is d's.", "quantifier": "every pair of media, any number of poles", "why_tests_cant": "list-shaped parameters", "anchors": ["src/materials/creation.cpp: drude_lorentz", "src/materials/lorentz.cpp"]}
{"id": "C50", "title": "Material names are identities", "statement": "Each material name is written to the output file exactly once, whatever the order of adds; but two different dispersive materials that share a name are silently merged: the second object's currents use the first material's parameters.", "quantifier": "every sequence of adds", "why_tests_cant": "all sequences", "anchors": ["src/field2.cpp: insert_object_helper", "include/field2.h: add_polarization"]}
{"id": "C51", "title": "No history reaches a bad optional or a missing map key", "statement": "No sequence of adds, moves, clears, material-grid rebuilds and updates makes update() dereference an empty previous-field buffer or update_material_grid() look up a missing polarization.", "quantifier": "every sequence of API calls", "why_tests_cant": "all histories", "anchors": ["src/field2.cpp: update, update_object_polarization_grid, insert_object", "src/materials/*_polarization.cpp: update_J"]}
{"id": "C52", "title": "Construction with the default file name", "statement": "Field2D(grid) with the default empty filename constructs a usable field.", "quantifier": "every grid", "why_tests_cant": "behaviour is undefined (null dereference), which a test can only observe as one crash", "anchors": ["src/field2.cpp: Field2D::Field2D", "include/field2.h: Field2D(grid_properties, std::string)"]}
{"id": "C53", "title": "Point monitors record", "statement": "A point_monitor accumulates the Fourier sum of the field at its cell.", "quantifier": "every grid, position and component selection", "why_tests_cant": "the sampling lambda holds a dangling reference, so results are compiler-dependent", "anchors": ["include/monitors/point_monitor.h: locate, update"]}
{"id": "C54", "title": "Near-to-far-field transform", "statement": "ntff of a box is the sum over its sides; each monitor's ntff is linear in the accumulated coefficients; and the equivalent-current integrand for a given sample, tangent and outward normal is the same for box and cylinder monitors.", "quantifier": "every accumulated content, observation point and frequency", "why_tests_cant": "complex sums over arbitrary contents", "anchors": ["include/monitors/surface_monitor.h: ntff", "include/monitors/box_monitor.h: ntff", "include/monitors/cylinder_monitor.h: ntff"]}
{"id": "C55", "title": "Automatic names are distinct", "statement": "Objects (and likewise monitors, time monitors, sources, materials) created without an explicit name get pairwise different names, whatever else is created in between.", "quantifier": "every number of creations", "why_tests_cant": "unbounded counters and decimal printing", "anchors": ["src/object.cpp", "include/materials/material.h", "src/sources/source.cpp", "include/monitors/*.h", "src/time_monitors/*.cpp"]}
{"id": "C56", "title": "Overwritten or moved dispersive objects leave no trace", "statement": "After update_material_grid, or when a later object covers an earlier dispersive one, a cell's polarization strength is that of the object that owns the cell.", "quantifier": "every history of adds and moves", "why_tests_cant": "depends on histories of overlaps and moves", "anchors": ["src/materials/*_polarization.cpp: insert_object", "src/field2.cpp: update_material_grid"]}
{"id": "C57", "title": "Dynamic-object trace", "statement": "After k write_current calls the dynamic object's position and theta datasets hold k+1 rows: the pose at add time followed by the pose at each call, in order.", "quantifier": "every sequence of moves and writes", "why_tests_cant": "unbounded sequences", "anchors": ["src/dynamic_object.cpp: write, write_current"]}
{"id": "C58", "title": "Frequency-domain sampling regions", "statement": "A volume monitor and a volume time monitor sample exactly the (dim+1)x(dim+1) cells from corner a to corner b when a<=b; a surface monitor takes one sample at the middle of each of its |b-a| cell edges, whichever end is first.", "quantifier": "every region and grid", "why_tests_cant": "all regions and both orientations", "anchors": ["include/monitors/volume_monitor.h", "include/monitors/surface_monitor.h: update", "src/time_monitors/volume_time_monitor.cpp", "src/time_monitors/surface_time_monitor.cpp"]}
{"id": "C59", "title": "Averages to the grid nodes and edge middles", "statement": "to_grid, to_xgrid and to_ygrid return, for every field that is affine in x and y, its value at the node (i*dx, j*dx), at ((i+1/2)*dx, j*dx) and at (i*dx, (j+1/2)*dx) respectively, for each of Ez, Hx and Hy.", "quantifier": "every affine field, every cell size and every cell", "why_tests_cant": "no test or caller uses them; the index offsets are right or wrong for all fields at once", "anchors": ["src/field2.cpp: to_grid, to_xgrid, to_ygrid"]}
{"id": "C60", "title": "Frequency monitors inside the interior are sampled in range", "statement": "A surface, box, cylinder or volume monitor whose region lies inside grid.interior() is added without undefined behaviour and every later update reads only cells of the arrays.", "quantifier": "every grid, every set of such monitors, every number of updates", "why_tests_cant": "the sample positions depend on cell size, rounding and the half-cell shifts; no bounds check exists in release builds", "anchors": ["include/monitors/surface_monitor.h: update", "include/monitors/cylinder_monitor.h: update", "include/monitors/volume_monitor.h: update", "src/field2.cpp: interpolate", "src/grid.cpp: interior"]}
{"id": "C61", "title": "Well-formed programs run to their end", "statement": "Every program that uses each name once, keeps its objects, sources, monitors and time monitors in the regions the grid offers, asks a monitor only for results its transforms hold, and writes each result once, runs to its end: no call throws and none has undefined behaviour.", "quantifier": "every grid with room for its layer (at most 46341 cells a side), every program (any number and order of the 24 kinds of calls) meeting the rules, every input value", "why_tests_cant": "unboundedly many programs; most of the hazards are unchecked array accesses, divisions by zero, optionals and file-name collisions that only some call orders reach", "anchors": ["src/field2.cpp", "include/field2.h", "include/monitors/*.h", "src/tfsf.cpp", "src/object.cpp", "src/time_monitors/*.cpp"]}
{"id": "C62", "title": "The shipped programs run", "statement": "tests/simple.cpp, tests/main.cpp, tests/mie.cpp, tests/mie/mie.cpp, tests/drude/mie.cpp and tests/force/force.cpp run all their thousands of updates and write all their results without an exception or undefined behaviour.", "quantifier": "the six programs, any names given by the counters, any Drude constants", "why_tests_cant": "a run shows only that nothing crashed on one machine; reads out of range or of uninitialised memory stay silent in release builds", "anchors": ["tests/simple.cpp", "tests/main.cpp", "tests/mie.cpp", "tests/mie/mie.cpp", "tests/drude/mie.cpp", "tests/force/force.cpp"]}
{"id": "C63", "title": "The output file only grows", "statement": "Whatever a program does, groups of the file stay, datasets of fixed size never change, the others only get rows at their end; and what one call has recorded (under a name, or as a result) no later call records again: that call does not finish, not even after remove_monitors, so a name serves once per field and set_tfsf can be called once.", "quantifier": "every program, ended by an exception or catching all exceptions; every state", "why_tests_cant": "all call orders and names, including the collisions between the sides of a box monitor and surface monitors", "anchors": ["src/field2.cpp", "src/object.cpp", "src/dynamic_object.cpp", "src/monitors/*.cpp", "src/time_monitors/*.cpp", "src/source.cpp", "src/tfsf.cpp"]}
{"id": "C64", "title": "The output file records the program", "statement": "At every later moment the file holds the grid's parameters, each object's shape, placement and material reference, each material's parameters (those of the first object of that material name), each source's and monitor's region, waveform and frequencies, the total-field box, and every result at the path documented for it, with the values the calls had.", "quantifier": "every program and every moment of it, every input", "why_tests_cant": "the data files are read back by other scripts; a swapped or missing value shows only in the analysis", "anchors": ["src/grid.cpp:76-85", "src/object.cpp", "src/dynamic_object.cpp", "src/geometry/*.cpp", "src/materials/*.cpp", "src/source.cpp", "src/monitors/*.cpp", "src/time_monitors/*.cpp", "src/tfsf.cpp", "src/dft.cpp"]}
{"id": "C65", "title": "Sources emit their waveforms and record their spectra", "statement": "A continuous source emits a sine of its frequency; a Gaussian source that sine times a bell of height one around its delay whose width in frequency is the one given, so never more than one. A source given frequencies holds, at every moment, the Fourier sums of exactly the values it emitted, one for each step since it was added.", "quantifier": "all frequencies, widths, delays, times; every program before and after adding the source that does not restart the clock", "why_tests_cant": "normalising a result by the source spectrum hides a wrong envelope, a shifted time stamp or a value counted twice until other parameters are used", "anchors": ["src/sources/time_profile.cpp:17-39", "include/sources/time_profile.h:29-32", "src/source.cpp", "src/dft.cpp"]}
{"id": "C66", "title": "The incident spectrum and flux are those of the plane wave", "statement": "For a total-field region whose source was given frequencies, the E and H sums held by the incident line are the Fourier sums of the plane wave at one cell of the line, both fields taken at one time and one place, one for each step since set_tfsf; flux() returns for each frequency the real part of E times the conjugate of H.", "quantifier": "every grid, region, waveform, list of frequencies; every program before, every later program without clear_fields or a second set_tfsf", "why_tests_cant": "cross sections are normalised by this flux, so a misplaced sample or half step only scales the answer by a factor that depends on the resolution", "anchors": ["src/tfsf.cpp:30-60", "src/tfsf.cpp:118-135", "include/tfsf.h", "src/dft.cpp"]}
{"id": "C67", "title": "A monitor made around an object surrounds it with the margin", "statement": "get_box_monitor(freq, buffer) adds one box monitor and changes nothing else of the simulation; its four sides form a closed outward-oriented line, every point of the object as it now stands lies at least buffer inside it, and (cylinders, blocks, ellipses along the axes) the object comes as close as buffer to every side.", "quantifier": "every state, object, pose, list of frequencies and margin > 0", "why_tests_cant": "the force and flux on an object are right only when the line encloses it for every shape, size and angle", "anchors": ["src/object.cpp:58-64", "src/object.cpp:71-77", "include/vec.h:135-158", "include/monitors/box_monitor.h:19-37"]}
{"id": "C68", "title": "Bounding boxes are as small as possible", "statement": "The bounding box of a placed object touches the object on all four sides.", "quantifier": "every shape, position and angle", "why_tests_cant": "continuous shapes and angles; a too large box only costs time or margin and is never noticed", "anchors": ["src/geometry/geometry.cpp:5-14", "src/geometry/cylinder.cpp:25-27", "src/object.cpp:71-77"]}
{"id": "C69", "title": "Far fields are outgoing cylindrical waves", "statement": "In every direction and at every frequency f, the far field computed at distance r is a fixed complex amplitude times exp(i(pi/4 - kr))/sqrt(8 pi k r) with k = 2 pi f: power times distance is constant, and whole wavelengths further out the phase is the same.", "quantifier": "every surface, box and cylinder monitor after any run, every direction, distance > 0 and frequency", "why_tests_cant": "continuous directions and distances; a test looks at one circle", "anchors": ["include/monitors/surface_monitor.h:178-215", "include/monitors/box_monitor.h:54-62", "include/monitors/cylinder_monitor.h:88-122"]}
{"id": "C70", "title": "The table of far fields goes evenly round the circle", "statement": "ntff(radius, N) of a box or cylinder monitor returns N rows, row i being the far field at the point of the circle at angle 2 pi i/(N-1) about the centre of the monitor; neighbouring angles are equally far apart and the last row repeats the first.", "quantifier": "every box and cylinder monitor after any run, every radius and N >= 2", "why_tests_cant": "any number of angles and frequencies; a transposed or shifted table looks plausible", "anchors": ["include/monitors/box_monitor.h:64-75", "include/monitors/cylinder_monitor.h:172-185", "src/monitors/ntff.cpp:25-29"]}
{"id": "C71", "title": "The far field does not depend on how finely a line is sampled", "statement": "The far field is an integral along the monitor: the same uniform content on the same segment, cut into more or fewer pieces and seen at right angles, gives the same far field.", "quantifier": "every segment, content, number of pieces and point at right angles", "why_tests_cant": "the factor is invisible in one run and in normalised plots; it shows only when results at two resolutions are compared", "anchors": ["include/monitors/surface_monitor.h:196-214"]}
{"id": "C72", "title": "The time report adds up", "statement": "Keeping the time does not change what a program does. The report printed when a Field2D is destroyed shows, under Time Stepping, Fourier Transforming and HDF5 Output, the lengths of stretches of time that follow one another without overlap (for a program that ends normally: electric half step, transforms and magnetic half step of every update, and one stretch per field written); no line is negative and the four parts add up to the total, also after exceptions that the program caught. The destructor itself never throws.", "quantifier": "every program, every sequence of caught exceptions, every clock that never goes back", "why_tests_cant": "times differ from run to run and are never checked; an overlap or a stop-watch left running only shows as an odd number", "anchors": ["include/timer.h:26-54", "src/timer.cpp:10-46", "src/field2.cpp:59-105", "src/field2.cpp:122-197"]}
{"id": "C73", "title": "A call writes its records in order; an exception leaves the first of them", "statement": "A call that returns has added to the HDF5 file exactly its own datasets (one row each, absent before) and changed no other dataset. If an exception ends the call, there is a point in that list such that the datasets before it are written, complete, and nothing else has changed.", "quantifier": "every state, every call that adds or reports (all but update and the calls that add rows), every name, with or without exception", "why_tests_cant": "the files left after a failed call are never looked at, and the clash can come at any of the datasets", "anchors": ["include/field2.h:134-168", "src/field2.cpp:246-250", "src/field2.cpp:320-360", "src/object.cpp", "src/monitors/flux.cpp"]}
{"id": "C74", "title": "A call that raises leaves the simulation as it was", "statement": "If add, set_tfsf, get_box_monitor, write or a result of a monitor ends with an exception, the fields, coefficients, sources, objects, monitors and time are as they were before the call.", "quantifier": "every state, every rejected call", "why_tests_cant": "the tests never catch an exception and carry on with the same field; the left-over shows only in the later fields", "anchors": ["include/field2.h:134-168", "src/field2.cpp:246-250", "src/field2.cpp:320-360"]}
{"id": "C75", "title": "Absorbing media never add energy", "statement": "While the fields have not reached the PML and nothing drives them, conductors and single-pole Debye and Drude media (eps >= 1, conductivity, damping and relaxation time not negative) only take energy: the leap-frog energy of the fields plus the energy held by the polarisation and the moving charges falls in every step by exactly 2 dt times the heat, so it never rises and bounds the fields for any number of steps.", "quantifier": "every field content, every arrangement of such objects, every number of steps before the PML is reached", "why_tests_cant": "passivity is a statement about all initial data and unbounded time; a sign or half-step error in one coefficient only shows as slow growth", "anchors": ["src/materials/debye.cpp", "src/materials/drude.cpp", "src/materials/simple_material.cpp", "src/materials/debye_polarization.cpp", "src/materials/drude_polarization.cpp", "src/field2.cpp: update"]}
{"id": "C76", "title": "No magnetic charge appears", "statement": "The discrete divergence of the magnetic field over a square of four magnetic cells is zero at every time, for every program, whatever materials, electric sources, incident waves and monitors it uses, as long as no magnetic source feeds one of the four cells, the rim of the incident wave's box does not pass through them and the square lies outside the absorbing layers; a divergence left by a magnetic source is not changed by later steps.", "quantifier": "every program including those whose calls raise, every such square, every number of steps", "why_tests_cant": "the divergence is a sum of four cells that cancel only if all curl terms have matching signs, indices and coefficients in all materials; a test sees one scene", "anchors": ["src/field2.cpp: update", "src/pml.cpp", "src/tfsf.cpp", "src/sources/point_source.cpp", "src/sources/line_source.cpp"]}
{"id": "C77", "title": "A lossless field runs backwards", "statement": "In a scene of lossless materials, while the fields have not reached the PML and nothing drives them, the step is reversible: take Ez after n+1 steps and the negatives of Hx and Hy after n steps, write them into the fields and call update; after k updates Ez is what it was after n+1-k steps and Hx, Hy are the negatives of what they were after n-k steps, and after n+1 updates Ez is the starting field.", "quantifier": "every field content, every arrangement of lossless objects, every n and k", "why_tests_cant": "reversibility compares whole trajectories for all initial data; it fails for any half-step slip or unmatched coefficient between the electric and magnetic halves of the step", "anchors": ["src/field2.cpp: update", "src/materials/simple_material.cpp"]}
{"id": "C78", "title": "Reciprocity", "statement": "Before the fields reach the PML, in a scene of conductors, Debye and Drude media (one pole) in vacuum: start the field with Ez = 1 in one cell A of simple material, or with Ez = 1 in one cell B of simple material; after any number n of updates Ez at B in the first run times (eps_B - sigma_B dt/2) equals Ez at A in the second run times (eps_A - sigma_A dt/2). More generally the two weighted sums over all cells agree for any two starting fields confined to simple materials.", "quantifier": "every arrangement of such objects, every pair of cells, every number of steps", "why_tests_cant": "it relates two runs through the full scene for all positions and all times; any asymmetry between the two curls, or a medium whose memory is applied to the wrong moment, breaks it only off symmetric scenes", "anchors": ["src/field2.cpp: update", "src/materials/simple_material.cpp", "src/materials/debye_polarization.cpp", "src/materials/drude_polarization.cpp"]}
{"id": "C79", "title": "Plane waves obey Yee's dispersion relation and are never faster than light", "statement": "Write a plane wave with wave numbers kx, ky and frequency om per step, the magnetic fields half a cell and half a step ahead, into a rectangle of uniform permittivity eps between the absorbing layers, where eps sin^2(om/2) = (sin^2(kx/2) + sin^2(ky/2))/4; after n updates the three fields of every cell more than n cells inside the rectangle are that plane wave at step n. For eps >= 1 every pair of wave numbers has such a real frequency, so no wave grows, and the wave's phase velocity is at most the speed of light in the medium.", "quantifier": "every amplitude, phase, direction and wavelength, every n, every permittivity of at least 1, every scene of lossless objects around the rectangle", "why_tests_cant": "stability and numerical dispersion are statements about a continuum of wave vectors and unboundedly many steps; a test sees a few of them up to rounding", "anchors": ["src/field2.cpp: update", "src/grid.cpp", "src/materials/simple_material.cpp"]}
{"id": "C80", "title": "The free far-field functions give the far field", "statement": "compute_ntff_point(E, H, freq, center, p) is the far field at p of the recorded coefficients E and H, as surface_monitor::ntff computes it; the functions returned by surface_monitor::locate sample the fields.", "quantifier": "every content of the monitor, every frequency list and point", "why_tests_cant": "no program of the repository calls these functions, so no run shows what they return", "anchors": ["src/monitors/ntff.cpp: compute_ntff_point, compute_ntff_sphere", "include/monitors/surface_monitor.h: locate"]}
{"id": "C81", "title": "Parameter arrays of different lengths are refused", "statement": "Making a debye, drude or lorentz material from parameter arrays of different lengths is refused; with equal lengths, entry k of every array belongs to pole k, and merging two materials with drude_lorentz keeps the parameters of each pole together.", "quantifier": "every list of parameters of every length, any arithmetic", "why_tests_cant": "all lengths and contents; a mismatch may go unnoticed when Eigen's assertions are compiled out", "anchors": ["src/materials/debye.cpp, drude.cpp, lorentz.cpp: constructors, beta, kappa, alpha, delta, Ca, Cb, Ca_prev", "src/materials/creation.cpp: drude_lorentz"]}
{"id": "C82", "title": "The console shows what the run does", "statement": "The constructor prints the cell size, the time step and the size of the grid; afterwards exactly the updates that complete a hundred since the last clear_fields() print a progress line with their number.", "quantifier": "every grid, every program that runs without an uncaught exception", "why_tests_cant": "every program and every grid", "anchors": ["src/field2.cpp: Field2D, display_info, update"]}
{"id": "C83", "title": "Media answer with their permittivity", "statement": "At a cell of a conductor, a Debye or a Drude medium (one pole), the Fourier sum over any run of the curl of H (taken at the half steps) is that of the time derivative of permittivity times E: 2i sin(w/2)/dt * eps(Om) * sum of E(n) e^(-iwn), where w is the phase per step, 0 < w < pi, Om = 2/dt tan(w/2) and eps(Om) is the textbook eps + sigma/(i Om), eps + deps/(1 + i Om tau) or eps + omega^2/(i Om (gamma + i Om)); the difference is at most an explicit multiple of the field and current the cell holds at the first and last step. The imaginary part of eps(Om) is never positive.", "quantifier": "every grid, every scene, every drive, every number of updates, every frequency below that of the steps", "why_tests_cant": "every run and every frequency; a test compares one spectrum with an analytic one within a tolerance", "anchors": ["src/materials/debye_polarization.cpp: update_J", "src/materials/drude_polarization.cpp: update_J", "src/field2.cpp: update_E", "src/materials/debye.cpp, src/materials/drude.cpp, src/materials/simple_material.cpp: Ca, Cb, beta, kappa"]}
{"id": "C84", "title": "Energy balance of any rectangle", "statement": "Take any rectangle of cells outside the absorbing layers, made of simple, Debye and Drude media (one pole) in any arrangement, with no source and no side of the total-field box acting inside it. Over any number of updates the energy in it (of the leap-frogged fields and of the media) changes by exactly minus dt times the sum of the Poynting flux E x H through its four sides and the heat produced in its cells, and that heat is never negative. With point and line sources inside the rectangle, on Hx and Hy anywhere and on Ez in simple media, the change is larger by exactly the work of the sources: adding v to Ez works like a current density (eps/dt + sigma/2) v, adding v to Hx or Hy like a magnetic current v/dt.", "quantifier": "every grid, every scene, every drive outside the rectangle, every rectangle, every number of updates", "why_tests_cant": "every rectangle, scene and run, exactly; a test compares a flux with an analytic value within a tolerance", "anchors": ["src/field2.cpp: update_E, update_H", "src/materials/debye_polarization.cpp: update_J", "src/materials/drude_polarization.cpp: update_J", "src/tfsf.cpp: update_E, update_H"]}
{"id": "C85", "title": "Left and right are treated alike", "statement": "If one simulation is the mirror image of another in the middle column (Ez and Hx of column a in column Nx-1-a, Hy of column a with opposite sign in column Nx-2-a, likewise media, PML memories and sources), then it still is after any number of updates.", "quantifier": "every grid whose two layers do not overlap, every pair of reachable mirrored states (any media including dispersive ones, any sources, no total-field box), any number of updates", "why_tests_cant": "relates two arbitrary runs; the defect needs light at the outermost columns, behind the absorbing layer, where it is usually weak", "anchors": ["src/field2.cpp:update", "src/pml.cpp", "src/pml.cpp:update_E", "src/pml.cpp:update_H"]}
{"id": "C86", "title": "Away from the layers, place and grid size do not matter", "statement": "Take two simulations with the same cell size and time step on grids of any size and with layers of any thickness. If the second shows, in a square of cells outside both layers, the fields, media, polarization and sources of the first moved by (a, b) cells, then after n updates it still does so in the square n cells smaller on each side. This holds bit for bit in double arithmetic. In exact arithmetic it holds for programs: displacing every object and source by (a, b) cells displaces the fields alike, wherever light has not come from a layer.", "quantifier": "every pair of grids, every pair of reachable states without a total-field box, every displacement, every square, every number of updates, every number system", "why_tests_cant": "relates two arbitrary runs on grids of different size; a test compares a few runs within a tolerance", "anchors": ["src/field2.cpp:update", "src/pml.cpp:update_E", "src/pml.cpp:update_H", "src/materials/debye_polarization.cpp: update_J", "src/materials/drude_polarization.cpp: update_J", "src/materials/lorentz_polarization.cpp: update_J"]}
{"id": "C87", "title": "The grid in double arithmetic", "statement": "In IEEE double arithmetic, for every resolution whose reciprocal neither overflows nor becomes subnormal: a point converts to the nearest cell up to one rounding error of the quotient; conversion keeps the order of points; every finite point between zero and the stored lengths converts to a cell of the grid; the number of cells is the exact product of length and resolution rounded up, or one less when the product passes an integer by no more than a rounding error; the stored length never exceeds the requested one and falls short of it by at most a cell, up to rounding; the point at the requested length converts to the last cell or to the one after it, and both happen; converting a surface raises no exception.", "quantifier": "every double length, resolution and point, every thickness, every surface", "why_tests_cant": "rounding depends on every bit of the arguments; a test tries a few resolutions, for which the products usually happen to be exact", "anchors": ["src/grid.cpp:grid_properties", "src/grid.cpp:to_grid", "src/grid.cpp:to_real", "include/vec.h:surface_template"]}
{"id": "C88", "title": "Rounding errors of the time step are bounded", "statement": "In IEEE double arithmetic, start from any finite fields and PML memories and update k times. As long as the magnitudes of the terms (the same step carried out with absolute values, all signs positive) do not overflow, every cell of Ez, Hx, Hy and of the eight PML memories is finite and differs from the exact time step with the same coefficients by at most (1 + 2^-53)^(13 k) - 1 times that magnitude. The magnitudes cannot overflow for k steps if every cell is at most 2^e, every coefficient at most 2^a, every divisor at least 2^-a, and e + k (6 a + 21) is at most 1000.", "quantifier": "every libm, every grid whose two layers do not overlap, every simple medium, every state of doubles, every number of updates (no sources, dispersive media or total-field box)", "why_tests_cant": "bounds the error against an exact computation no test can carry out, for arbitrary doubles including cancellation and underflow", "anchors": ["src/field2.cpp:update", "src/pml.cpp:update_E", "src/pml.cpp:update_H"]}
