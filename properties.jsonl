{"id": "C01", "title": "Base91 round trip", "statement": "Decoding the base-91 text produced for any binary buffer gives back exactly that buffer, byte for byte.", "quantifier": "every finite byte string (any length, any contents)", "why_tests_cant": "the branch between 13- and 14-bit groups and the length of the last group depend on the whole bit history; a test covers a few buffers", "anchors": ["code/base91x/base91.hpp: base<91>::encode, base<91>::decode"]}
{"id": "C02", "title": "Base91 alphabet", "statement": "Every character produced by the base-91 encoder belongs to the 91-symbol alphabet; in particular the text never contains a single quote, a backslash, a space or a non-printable character, so it can be put between single quotes as the websocket/JSON observer does.", "quantifier": "every finite byte string", "why_tests_cant": "quantifies over all buffers", "anchors": ["code/base91x/base91.hpp: base<91>::encode", "code/observers_and_api/src/DictObserver.cpp: get_serializer(SurfaceElevationGrid)"]}
{"id": "C03", "title": "Base91 decoder ignores foreign characters", "statement": "Inserting any characters outside the 91-symbol alphabet (line breaks, spaces...) anywhere in a base-91 text does not change what it decodes to.", "quantifier": "every text and every way of interleaving foreign characters", "why_tests_cant": "infinitely many interleavings", "anchors": ["code/base91x/base91.hpp: base<91>::decode"]}
{"id": "C04", "title": "Base64 round trip and length", "statement": "Decoding the base-64 text of any binary buffer gives back that buffer, and the text has length 4*ceil(n/3).", "quantifier": "every finite byte string", "why_tests_cant": "all lengths modulo 3 and all contents", "anchors": ["code/base91x/base91.hpp: base<64>::encode, base<64>::decode"]}
{"id": "C05", "title": "Binary STL round trip", "statement": "Writing any list of triangles as binary STL and reading the resulting bytes back gives the same triangles in the same order (with the single-precision coordinates that were written).", "quantifier": "every list of fewer than 2^32 triangles, every 32-bit pattern for the coordinates", "why_tests_cant": "all mesh sizes and contents; the format auto-detection must also classify each such file as binary", "anchors": ["code/external_file_formats/src/stl_writer.cpp: write_binary_stl", "code/external_file_formats/src/stl_reader.cpp: read_binary_stl, is_stl_data_binary, read_stl"]}
{"id": "C06", "title": "A truncated binary STL is not silently accepted", "statement": "If a binary STL file is cut short, the reader reports an error (or at least does not invent facets that are not in the file).", "quantifier": "every file and every truncation point", "why_tests_cant": "all truncation points", "anchors": ["code/external_file_formats/src/stl_reader.cpp: read_binary_stl"]}
{"id": "C07", "title": "History instants stay strictly increasing", "statement": "After any sequence of recordings, the instants kept in a history are strictly increasing, whatever arithmetic rounding does, and the last one is the last recorded instant.", "quantifier": "every sequence of recorded (date, value) pairs, any Tmax >= 0", "why_tests_cant": "quantifies over all histories of calls", "anchors": ["code/hdb_interpolators/src/History.cpp: record, add_value_to_history, shift_oldest_recorded_instant_if_necessary"]}
{"id": "C08", "title": "Recording in the past is refused and has no effect", "statement": "Recording a date (really) earlier than the latest one raises an error and leaves the history unchanged; no other recording raises an error.", "quantifier": "every history, every date", "why_tests_cant": "all call histories", "anchors": ["code/hdb_interpolators/src/History.cpp: record"]}
{"id": "C09", "title": "Bracketing search terminates and is correct", "statement": "Looking up any date in a history terminates, and returns the index of the first recorded instant that is not earlier than the date (the size of the history if there is none).", "quantifier": "every sorted history of any size, every date", "why_tests_cant": "the loop has no explicit bound; correctness must hold for all sizes", "anchors": ["code/hdb_interpolators/src/History.cpp: find_braketing_position"]}
{"id": "C10", "title": "History returns recorded values", "statement": "Asking a history for the value at the date of a recorded point returns the recorded value; between two consecutive points it returns the linear interpolation (never outside the interval of the two values).", "quantifier": "every history within its duration, every delay", "why_tests_cant": "continuum of delays, all histories", "anchors": ["code/hdb_interpolators/src/History.cpp: operator(), get_value, interpolate_value_in_interval"]}
{"id": "C11", "title": "History window", "statement": "A history never spans more than Tmax, and nothing inside the last Tmax seconds is forgotten.", "quantifier": "every sequence of recordings", "why_tests_cant": "all histories", "anchors": ["code/hdb_interpolators/src/History.cpp: shift_oldest_recorded_instant_if_necessary, get_duration"]}
{"id": "C12", "title": "Value at the start of the history window", "statement": "When old points are dropped, the point kept at the start of the window carries the value the history had at that date (interpolation of the two points around it).", "quantifier": "every sequence of recordings, including recordings with large steps", "why_tests_cant": "depends on how many points a step drops", "anchors": ["code/hdb_interpolators/src/History.cpp: shift_oldest_recorded_instant_if_necessary"]}
{"id": "C13", "title": "History average is the time average", "statement": "average(T) is the integral of the piecewise-linear history over the last min(T,duration) seconds divided by that length; in particular it lies between the smallest and the largest value and is exact for affine signals.", "quantifier": "every history, every T >= 0", "why_tests_cant": "continuum of T, all histories", "anchors": ["code/hdb_interpolators/src/History.cpp: average, integrate, trapeze"]}
{"id": "C14", "title": "Forced states only touch what is blocked", "statement": "At a date t, forcing states changes exactly the components that are declared blocked and whose table covers t (bounds included), to the interpolated value; every other component of every body is untouched.", "quantifier": "every set of tables, every state vector (any number of bodies), every date", "why_tests_cant": "frame property over all states and dates", "anchors": ["code/core/src/BlockedDOF.cpp: force_states, force_state_derivatives, state_is_blocked_at_that_date"]}
{"id": "C15", "title": "A state read from a CSV file forces that state", "statement": "A forced degree of freedom declared in a CSV table acts on the state named in the YAML entry.", "quantifier": "every CSV-declared forced state", "why_tests_cant": "all inputs", "anchors": ["code/core/src/BlockedDOF.cpp: read_table_from_csv, get_forced_states"]}
{"id": "C16", "title": "A state cannot be forced twice", "statement": "If the same state is declared twice (in YAML, in CSV, or one in each) construction fails with an input error, otherwise it succeeds.", "quantifier": "every pair of lists of declarations", "why_tests_cant": "all list lengths and orders", "anchors": ["code/core/src/BlockedDOF.cpp: check_states_are_not_defined_twice"]}
{"id": "C17", "title": "Blocking efforts close the balance", "statement": "The reported effort of the blocked states is the effort that must be added to the other forces to give the imposed acceleration: F + dF = M * acceleration; without blocked states it is reported as zero.", "quantifier": "every inertia matrix, force and acceleration", "why_tests_cant": "all real inputs", "anchors": ["code/core/src/BlockedDOF.cpp: get_delta_F"]}
{"id": "C18", "title": "Quaternions are normalised", "statement": "After a right-hand-side evaluation the attitude quaternion of every body has unit norm, up to the tolerance under which renormalisation is skipped, and only quaternion components are modified.", "quantifier": "every state vector with non-zero quaternions, any number of bodies", "why_tests_cant": "all states", "anchors": ["code/core/src/Sim.cpp: normalize_quaternions, operator()"]}
{"id": "C19", "title": "Quaternion kinematics preserve the norm", "statement": "The quaternion derivative computed from the body rates is orthogonal to the quaternion: the exact solution keeps unit norm; and it is linear in the rates.", "quantifier": "every quaternion, every p,q,r", "why_tests_cant": "all reals", "anchors": ["code/core/src/Body.cpp: calculate_state_derivatives"]}
{"id": "C20", "title": "Observers report every body's forced states", "statement": "When several bodies have forced states, the reported states show the forced values for all of them.", "quantifier": "any number of bodies, all states and dates", "why_tests_cant": "depends on the number of bodies", "anchors": ["code/core/src/Sim.cpp: output", "code/core/src/Body.cpp: block_states_if_necessary"]}
{"id": "C21", "title": "Bodies do not interfere in the state vector", "statement": "Each of the 13 state indices of each body designates a distinct slot of the state vector, so writing one body's state never changes another's.", "quantifier": "every number of bodies, every index", "why_tests_cant": "all indices", "anchors": ["code/core/inc/StateMacros.hpp", "code/core/src/Body.cpp: calculate_state_derivatives"]}
{"id": "C22", "title": "Current state vector of body i", "statement": "Asking for the current state values of any body index returns its 13 states.", "quantifier": "every body index", "why_tests_cant": "all indices", "anchors": ["code/core/src/BodyStates.cpp: get_current_state_values"]}
{"id": "C23", "title": "Blocking efforts act on blocked states only", "statement": "The effort reported for the blocked states has components only along the states that are blocked at that date: a free degree of freedom receives no blocking effort.", "quantifier": "every inertia matrix, every set of forced states, every date", "why_tests_cant": "it depends on the inertia matrix, on the forces and on which tables cover the date", "anchors": ["code/core/src/BlockedDOF.cpp: get_delta_F", "code/core/src/Body.cpp: calculate_state_derivatives, get_delta_F", "code/core/src/Sim.cpp: output"]}
{"id": "C24", "title": "Simulation output instants", "statement": "A fixed-step simulation observes the system at tstart, then at tstart + i*dt for i = 1, 2, ... in order, once each.", "quantifier": "every tstart, tend, dt > 0", "why_tests_cant": "all durations / step counts", "anchors": ["code/core/inc/solver.hpp: quicksolve", "code/observers_and_api/inc/simulator_api.hpp: simulate"]}
{"id": "C25", "title": "Forced states at the observed instant", "statement": "After each step the state handed to the observers carries the forced values for the instant being observed.", "quantifier": "every forced-state table, every step", "why_tests_cant": "all schedules", "anchors": ["code/core/inc/solver.hpp: quicksolve"]}
{"id": "C26", "title": "One separator between values", "statement": "A CSV/TSV line has exactly as many fields as requested variables, in the requested order, on the header line and on every data line; the header is written exactly once.", "quantifier": "every list of requested variables, every number of observations", "why_tests_cant": "all list lengths and run lengths", "anchors": ["code/core/src/Observer.cpp: initialize_serialization_of_requested_variables, serialize_requested_variables", "code/observers_and_api/src/CsvObserver.cpp", "code/observers_and_api/src/TsvObserver.cpp"]}
{"id": "C27", "title": "Unknown outputs are reported", "statement": "Asking for a variable that is not computed raises an input error naming it, and no data line is written.", "quantifier": "every request list, every set of computed variables", "why_tests_cant": "all lists", "anchors": ["code/core/src/Observer.cpp"]}
{"id": "C28", "title": "Dictionary observers emit well-formed JSON", "statement": "Every record sent by the JSON / websocket observer is a syntactically valid JSON object, with each requested value at its place.", "quantifier": "every set of requested variables, every record number", "why_tests_cant": "depends on which kinds of variables are requested and on the record number", "anchors": ["code/observers_and_api/src/DictObserver.cpp"]}
{"id": "C29", "title": "Variable names are split into object and field", "statement": "A variable called 'f(obj)' is stored as field f of object obj, and a name without parentheses is stored at top level, losslessly: different names never collide.", "quantifier": "every pair of names", "why_tests_cant": "all strings", "anchors": ["code/observers_and_api/src/DictObserver.cpp: extractKeyVarFromString"]}
{"id": "C30", "title": "Server inputs rebuild the history", "statement": "The co-simulation / model-exchange servers use the last received state as current state and keep the earlier ones as history, in order, whatever the number of states received; inconsistent sizes are rejected.", "quantifier": "every request, any history length", "why_tests_cant": "all list lengths", "anchors": ["code/observers_and_api/src/SimServerInputs.cpp", "code/observers_and_api/src/HistoryParser.cpp", "code/observers_and_api/src/XdynForCS.cpp"]}
{"id": "C31", "title": "Websocket addresses", "statement": "The websocket address parser accepts exactly the URLs with a scheme, a host and a port between 1 and 65535, and returns that port.", "quantifier": "every string", "why_tests_cant": "all strings", "anchors": ["code/yaml_parser/src/parse_address.cpp"]}
{"id": "C32", "title": "Output format selection", "statement": "A file name given on the command line selects the format of its extension (csv, tsv, json, h5, hdf5), for every base name.", "quantifier": "every file name", "why_tests_cant": "all strings", "anchors": ["code/yaml_parser/src/parse_output.cpp: build_YamlOutput_from_filename, get_format, get_format_for_wave_observer"]}
{"id": "C33", "title": "Angular frequency grid", "statement": "The spectrum discretisation grid has exactly n values, strictly increasing, starting at omega_min and ending at omega_max; invalid bounds are rejected.", "quantifier": "every omega_min, omega_max, n", "why_tests_cant": "all n and bounds", "anchors": ["code/environment_models/src/WaveSpectralDensity.cpp: get_angular_frequencies"]}
{"id": "C34", "title": "Flattening conserves energy", "statement": "Flattening a discretised directional spectrum produces one component per (frequency, direction) pair, and the sum of a^2/2 is the trapezoidal double sum of the spectral density.", "quantifier": "every discrete spectrum", "why_tests_cant": "all sizes", "anchors": ["code/environment_models/src/discretize.cpp: flatten"]}
{"id": "C35", "title": "Constant-phase models accept every grid", "statement": "A wave model with imposed phases works whatever the numbers of frequencies and directions.", "quantifier": "all n (frequencies) and p (directions)", "why_tests_cant": "depends on the two sizes", "anchors": ["code/environment_models/src/WaveModel.cpp: add_constant_phases", "code/environment_models/src/discretize.cpp: flatten"]}
{"id": "C36", "title": "Spectrum filtering keeps the most energetic rays", "statement": "Filtering with ratio r keeps a set of rays, taken in decreasing order of density, whose cumulated density reaches r of the total, each with its phase, and drops only rays that are not needed.", "quantifier": "every flat spectrum, every r", "why_tests_cant": "all sizes", "anchors": ["code/environment_models/src/discretize.cpp: filter"]}
{"id": "C37", "title": "Dynamic pressure vanishes out of the water", "statement": "No dynamic pressure is reported above the instantaneous free surface nor below the sea bed.", "quantifier": "every spectrum, every point and date", "why_tests_cant": "continuum", "anchors": ["code/environment_models/src/Airy.cpp: dynamic_pressure", "code/environment_models/src/discretize.cpp: dynamic_pressure_factor"]}
{"id": "C38", "title": "Wave elevation is bounded by the sum of amplitudes", "statement": "At every point and date the elevation of an Airy model is within plus/minus the sum of the component amplitudes, it is additive over the directional spectra, and it is periodic in time for a single component.", "quantifier": "all spectra, points and dates", "why_tests_cant": "continuum", "anchors": ["code/environment_models/src/Airy.cpp: elevation", "code/core/src/SurfaceElevationFromWaves.cpp: wave_height"]}
{"id": "C39", "title": "Depth stretching maps the water column", "statement": "The stretched coordinate keeps the sea bed fixed, maps the free surface to delta times the elevation, is monotonic, and is the identity below the sea bed or without stretching.", "quantifier": "all depths, elevations, coordinates", "why_tests_cant": "continuum", "anchors": ["code/environment_models/src/Stretching.cpp: rescaled_z"]}
{"id": "C40", "title": "Wave output grid", "statement": "The wave mesh has exactly nx*ny points in row order, covers [xmin,xmax]x[ymin,ymax], its declared size always matches its number of points, and the exported grid gives for each (i,j) the elevation at (x_i,y_j).", "quantifier": "every nx, ny, bounds, output frame", "why_tests_cant": "all sizes and frames", "anchors": ["code/core/src/SurfaceElevationBuilder.cpp: make_wave_mesh, get_wave_mesh_size", "code/core/src/SurfaceElevationInterface.cpp: get_waves_on_mesh_as_a_grid"]}
{"id": "C41", "title": "Mesh builder de-duplicates", "statement": "Every facet of the input appears once in the built mesh, in order, with the same vertices; each distinct point is stored once; each undirected edge is stored once, with consistent directions.", "quantifier": "every list of facets", "why_tests_cant": "all meshes", "anchors": ["code/mesh/src/MeshBuilder.cpp"]}
{"id": "C42", "title": "Mesh builder stays within its buffers", "statement": "Building a mesh never writes outside the arrays it allocated, whatever the facet sizes.", "quantifier": "every list of non-empty facets", "why_tests_cant": "all meshes", "anchors": ["code/mesh/src/MeshBuilder.cpp"]}
{"id": "C43", "title": "Immersed/emerged partition", "statement": "For every elevation field, each static facet is classified as exactly one of immersed, emerged or split; an edge is split iff its ends are strictly on both sides of the surface.", "quantifier": "every mesh and immersion vector", "why_tests_cant": "all meshes and free surfaces", "anchors": ["code/mesh/src/MeshIntersector.cpp"]}
{"id": "C44", "title": "The edge split point is on the free surface", "statement": "The point inserted on a split edge lies strictly between the two ends, has zero (interpolated) immersion, and both sub-edges together have the length of the edge.", "quantifier": "every crossing edge", "why_tests_cant": "continuum", "anchors": ["code/mesh/src/MeshIntersector.cpp: split_partially_immersed_edge"]}
{"id": "C45", "title": "Facet area, normal and centroid", "statement": "The area of a facet is invariant by vertex rotation and reversal, the normal is a unit vector orthogonal to the first three points, flips when the facet is reversed, and the centre of gravity is a convex combination of the triangle centroids.", "quantifier": "every polygon", "why_tests_cant": "continuum", "anchors": ["code/mesh/src/mesh_manipulations.cpp"]}
{"id": "C46", "title": "Aquaplus axis convention conversion", "statement": "Converting the matrices of the HDB file from the Aquaplus to the xdyn axis convention is the similarity by the rotation of pi about x (so that forces and velocities expressed in the other axes correspond): applying it twice is the identity, and it preserves symmetry and the diagonal.", "quantifier": "every 6x6 matrix", "why_tests_cant": "all matrices", "anchors": ["code/hdb_interpolators/src/HDBParser.cpp: convert_matrices_from_aquaplus"]}
{"id": "C47", "title": "RAO tables keep each value with its period and direction", "statement": "In the tables read from an HDB file, the value found at (period, direction) is the value the file gives for them, whatever the order of the lines in the file.", "quantifier": "every table, every ordering of lines", "why_tests_cant": "all orders", "anchors": ["code/hdb_interpolators/src/HDBParser.cpp: get_rao"]}
{"id": "C48", "title": "RAO symmetry about the longitudinal plane", "statement": "Interpolating an RAO for incidence 2*pi-beta gives the mirrored value of incidence beta (sign flipped for sway, roll and yaw), and any incidence is first reduced modulo 2*pi.", "quantifier": "every incidence and period", "why_tests_cant": "continuum", "anchors": ["code/hdb_interpolators/src/DiffractionInterpolator.cpp"]}
{"id": "C49", "title": "Maneuvering expressions evaluate left to right with usual precedence", "statement": "Compiling an arithmetic expression and evaluating it yields the value of the expression under the usual precedence, with left associativity of +,-,*,/ .", "quantifier": "every expression", "why_tests_cant": "all syntax trees", "anchors": ["code/force_models/src/maneuvering_compiler.cpp", "code/force_models/inc/maneuvering_grammar.hpp"]}
{"id": "C50", "title": "Malformed maneuvering expressions are rejected", "statement": "An expression that is not entirely recognised by the grammar is rejected with an input error rather than silently truncated.", "quantifier": "every string", "why_tests_cant": "all strings", "anchors": ["code/force_models/src/maneuvering_compiler.cpp: compile"]}
{"id": "C51", "title": "The maneuvering model keeps enough history", "statement": "The history length requested by a maneuvering model is at least every delay used by its expressions, so that no delayed state is read outside the history.", "quantifier": "every expression, every date", "why_tests_cant": "all expressions", "anchors": ["code/force_models/src/ManeuveringInternal.cpp: get_min, get_max, FindTmax", "code/force_models/src/ManeuveringForceModel.cpp: get_Tmax"]}
{"id": "C52", "title": "Damping dissipates energy", "statement": "Linear damping with a positive semi-definite matrix, and quadratic damping with a non-negative diagonal matrix, never produce power.", "quantifier": "all velocities, all such matrices", "why_tests_cant": "continuum", "anchors": ["code/force_models/src/LinearDampingForceModel.cpp", "code/force_models/src/QuadraticDampingForceModel.cpp", "code/force_models/src/DampingForceModel.cpp"]}
{"id": "C53", "title": "Moving a controlled force to the centre of gravity", "statement": "The wrench of a controlled force model transported to the centre of gravity and expressed in the body frame does the same work as the original wrench for every rigid motion.", "quantifier": "all positions, orientations, wrenches and motions", "why_tests_cant": "continuum", "anchors": ["code/core/src/ControllableForceModel.cpp: operator()"]}
{"id": "C54", "title": "A constant force is correctly transported", "statement": "A constant force given in any frame is applied at the stated point: the torque at the centre of gravity is the given torque plus the lever arm cross the force, in the body frame.", "quantifier": "all frames, points and forces", "why_tests_cant": "continuum", "anchors": ["code/force_models/src/ConstantForceModel.cpp"]}
{"id": "C55", "title": "Heading controller is a second-order filter of the requested period and damping", "statement": "With inertia I in yaw, the heading controller makes the yaw error obey psi'' + 2 ksi w0 psi' + w0^2 psi = 0.", "quantifier": "all inertias, gains, states", "why_tests_cant": "continuum", "anchors": ["code/force_models/src/SimpleHeadingKeepingController.cpp"]}
{"id": "C56", "title": "Rudder area is shared between the wake and the free stream", "statement": "The rudder area in the propeller wake and outside add up to the rudder area and both are non-negative.", "quantifier": "all thrust loading coefficients >= 0", "why_tests_cant": "continuum", "anchors": ["code/force_models/src/RudderForceModel.cpp: get_Ar"]}
{"id": "C57", "title": "Propeller coefficients are evaluated inside their domain", "statement": "The Wageningen polynomials are evaluated at an advance ratio between 0 and 1.5 for every ship speed and rotation speed, and the model refuses blade numbers and area ratios outside the series.", "quantifier": "all speeds, commands and parameters", "why_tests_cant": "continuum incl. rpm = 0", "anchors": ["code/force_models/src/WageningenControlledForceModel.cpp", "code/force_models/src/AbstractWageningen.cpp"]}
{"id": "C58", "title": "Hydrostatic pressure on a closed immersed hull is Archimedes' force", "statement": "Summed over a facet list, the surface force is linear in the facet pressures, does not depend on the order of the facets, and its moment is that of the facet forces.", "quantifier": "all facet lists", "why_tests_cant": "all meshes", "anchors": ["code/core/src/SurfaceForceModel.cpp: operator()", "code/force_models/src/FastHydrostaticForceModel.cpp"]}
{"id": "C59", "title": "Equilibrium search by bisection", "statement": "The draught found by the GZ tool brackets a sign change of the vertical force: the bracket shrinks by two at each step, stays in the initial interval, and the search terminates; a body on which the resultant is upwards even when it is fully emerged is refused.", "quantifier": "every monotone vertical-force function, every initial bracket", "why_tests_cant": "the number of iterations is unbounded a priori", "anchors": ["code/gz_curves/src/GZCurve.cpp: zeq"]}
{"id": "C60", "title": "GZ curves use the equilibrium trim", "statement": "The equilibrium used for a GZ curve is the solution found by the Newton iterations.", "quantifier": "every hull", "why_tests_cant": "all force functions", "anchors": ["code/gz_curves/src/GZCurve.cpp: get_Xeq", "code/gz_curves/src/gz_newton_raphson.cpp"]}
{"id": "C61", "title": "Radiation quadrature nodes", "statement": "Regular and exponential integration grids have exactly n points, are strictly increasing and include both bounds.", "quantifier": "all bounds and n", "why_tests_cant": "all n", "anchors": ["code/hdb_interpolators/src/RadiationDampingBuilder.cpp: build_regular_intervals, build_exponential_intervals"]}
{"id": "C62", "title": "STL format detection", "statement": "A file is read as ASCII STL exactly when its first non-blank characters say so (the word 'solid'), as binary otherwise; in particular a file written by the binary writer is recognised as binary.", "quantifier": "all files", "why_tests_cant": "all byte sequences", "anchors": ["code/external_file_formats/src/stl_reader.cpp: read_stl, is_stl_data_binary"]}
{"id": "C63", "title": "In-memory observers keep one value per instant", "statement": "The map observer returns for each requested variable one value per observation, in order; the observer of the co-simulation API returns one result per observation with the date, the states and the other variables of that instant.", "quantifier": "all request lists, all sequences of observations", "why_tests_cant": "histories of unbounded length", "anchors": ["code/observers_and_api/src/MapObserver.cpp", "code/observers_and_api/src/EverythingObserver.cpp"]}
{"id": "C64", "title": "Gravity is conservative", "statement": "The power of the gravity force along any motion is the opposite of the derivative of the gravity potential energy the simulator reports; the force is m*g downwards in NED whatever the attitude, with no torque at G.", "quantifier": "all motions, attitudes, positions of the centre of gravity", "why_tests_cant": "continuum of motions", "anchors": ["code/force_models/src/GravityForceModel.cpp", "code/force_models/src/GravityForceModel.cpp: potential_energy"]}
{"id": "C65", "title": "Station keeping brings the ship to its set point", "statement": "With the station keeping controller the position error obeys a damped second-order equation with the requested period and damping, whatever the heading.", "quantifier": "all inertias, parameters, headings", "why_tests_cant": "continuum of trajectories", "anchors": ["code/force_models/src/SimpleStationKeepingController.cpp"]}
{"id": "C66", "title": "Linear hydrostatics follow the sea surface", "statement": "The linear hydrostatic force is linear in the displacement from equilibrium, does not change if the ship and the sea rise together, and sees the slope of an inclined sea surface.", "quantifier": "all elevations, attitudes, probe positions", "why_tests_cant": "continuum", "anchors": ["code/force_models/src/LinearHydrostaticForceModel.cpp"]}
{"id": "C67", "title": "Forces are summed at the centre of gravity", "statement": "The total force and torque applied to the body are the resultant of all force models and their total moment about G, whatever the order of declaration and the points at which the models give their wrench; the efforts reported in NED add up to the reported total.", "quantifier": "all lists of forces, application points, attitudes", "why_tests_cant": "unbounded lists", "anchors": ["code/core/src/Sim.cpp: sum_of_forces", "code/core/src/ForceModel.cpp", "code/core/src/ControllableForceModel.cpp: feed"]}
{"id": "C68", "title": "A rudder does not produce energy", "statement": "The force of each part of the rudder opposes its motion through the water, and without thrust the rudder is a single foil in the incident flow.", "quantifier": "all speeds, drift angles, rudder angles, going ahead or astern", "why_tests_cant": "continuum", "anchors": ["code/force_models/src/RudderForceModel.cpp"]}
{"id": "C69", "title": "Port-starboard symmetry of the rudder", "statement": "Opposite rudder angle and drift give the mirror image of the force and torque; amidships without drift there is no lateral force.", "quantifier": "all speeds, thrusts, angles", "why_tests_cant": "continuum", "anchors": ["code/force_models/src/RudderForceModel.cpp"]}
{"id": "C70", "title": "The rudder works in the wake of the propeller thrust", "statement": "The rudder force depends on the propeller only through its thrust.", "quantifier": "all propellers, speeds and commands", "why_tests_cant": "continuum", "anchors": ["code/force_models/src/RudderForceModel.cpp: get_force"]}
{"id": "C71", "title": "Rudder drag stays bounded at bounded speed", "statement": "For a given rudder, the drag is bounded on bounded sets of speeds.", "quantifier": "all rudders and speeds", "why_tests_cant": "a pole between two tested speeds is invisible to tests", "anchors": ["code/force_models/src/RudderForceModel.cpp: get_Cd"]}
{"id": "C72", "title": "Reversing the propeller reverses the thrust", "statement": "A propeller turning astern does not push the ship ahead.", "quantifier": "all propellers, speeds and rotation speeds", "why_tests_cant": "continuum", "anchors": ["code/force_models/src/AbstractWageningen.cpp", "code/force_models/src/WageningenControlledForceModel.cpp: saturate"]}
{"id": "C73", "title": "The hydrostatic force does not depend on the winding of the facets", "statement": "Describing every facet of the mesh in the opposite direction gives the same surface forces; the orientation factor is +1 for outward facets, -1 for inward ones, and meshes without a clear (10 to 1) majority are rejected.", "quantifier": "all meshes, attitudes, densities", "why_tests_cant": "quantifies over all meshes", "anchors": ["code/mesh/src/mesh_manipulations.cpp: oriented_clockwise", "code/mesh/src/Mesh.cpp: orientation_factor", "code/core/src/SurfaceForceModel.cpp"]}
{"id": "C74", "title": "The hydrostatic potential energy is a potential of the hydrostatic force", "statement": "Over any displacement the change of the energy reported by the hydrostatic model is the opposite of the work of its force.", "quantifier": "all hulls and displacements", "why_tests_cant": "continuum", "anchors": ["code/force_models/src/FastHydrostaticForceModel.cpp: pe"]}
{"id": "C75", "title": "The exact hydrostatic model applies pressure at the centre of pressure", "statement": "The point of application computed for a facet by the exact hydrostatic model is the centre of pressure of a linear pressure field on that facet.", "quantifier": "all facets and attitudes", "why_tests_cant": "continuum", "anchors": ["code/mesh/src/mesh_manipulations.cpp: exact_application_point", "code/core/src/Body.cpp: update_projection_of_z_in_mesh_frame"]}
{"id": "C76", "title": "Radiation damping is the memory of the recorded velocities", "statement": "The radiation force is the opposite of the sum over the six velocities of the convolution with the retardation functions; it is defined for every recorded past, reads nothing outside of it, is null before tau min, and is applied at the calculation point of the input.", "quantifier": "all histories, retardation functions and integration formulas", "why_tests_cant": "quantifies over all histories", "anchors": ["code/force_models/src/RadiationDampingForceModel.cpp", "code/hdb_interpolators/src/RadiationDampingBuilder.cpp: convolution"]}
{"id": "C77", "title": "Truncation of the retardation integral", "statement": "Cutting the integral over the frequencies where the damping is negligible leaves out only values below the requested precision, and stays between the bounds given by the user.", "quantifier": "all damping curves and precisions", "why_tests_cant": "continuum of functions", "anchors": ["code/hdb_interpolators/src/RadiationDampingBuilder.cpp: find_integration_bound, build_retardation_function"]}
{"id": "C78", "title": "GZ is the righting lever", "statement": "The GZ computed from the hydrostatic wrench is the horizontal transverse distance between the centre of gravity and the line of action of the buoyancy.", "quantifier": "all attitudes, buoyancy forces and centres", "why_tests_cant": "continuum", "anchors": ["code/force_models/src/calculate_gz.cpp"]}
{"id": "C79", "title": "Heel angles of the GZ curve", "statement": "The angles are sorted, symmetric, go from -phi_max to phi_max through 0 with the requested step except at the ends; other inputs are refused.", "quantifier": "all steps and maximum angles", "why_tests_cant": "all steps, including those that do not divide the maximum angle", "anchors": ["code/gz_curves/src/GZCurve.cpp: get_phi, compute_phi, check_input"]}
{"id": "C80", "title": "Newton iterations of the GZ tool", "statement": "Iterations keep the heel, solve affine force systems exactly in one step, and only return an equilibrium.", "quantifier": "all force functions, initial states and precisions", "why_tests_cant": "all functions", "anchors": ["code/gz_curves/src/gz_newton_raphson.cpp", "code/gz_curves/src/ResultantForceComputer.cpp: K"]}
{"id": "C81", "title": "Hydrodynamic matrices of an HDB file", "statement": "For every accepted file, line i of the matrix for the k-th period is the k-th line of the section of that name, with the change of axes; a missing line is refused; the periods are those of the lines; each damping coefficient comes with its own angular frequency, in increasing order.", "quantifier": "all lists of sections, names, numbers of periods", "why_tests_cant": "all files", "anchors": ["code/hdb_interpolators/src/HDBParser.cpp: get_matrix, fill, get_Tp, get_Mij, get_radiation_damping_coeff"]}
{"id": "C82", "title": "Diffraction force", "statement": "The diffraction force of a symmetric ship is mirrored when the waves are; it is unchanged when the waves, the position and the heading are turned together; it is proportional to the wave amplitude; its moment at G is transported from the calculation point; wave periods outside of the table are refused.", "quantifier": "all wave fields, tables, headings, positions and dates", "why_tests_cant": "all real inputs", "anchors": ["code/force_models/src/DiffractionForceModel.cpp", "code/hdb_interpolators/src/DiffractionInterpolator.cpp"]}
{"id": "C83", "title": "Waves are a linear potential flow", "statement": "The orbital velocities and dynamic pressures returned at all points under water are values of smooth fields that conserve mass, are irrotational and satisfy the linearised Euler equation; nothing flows through the sea bed.", "quantifier": "all wave models (any number of spectra, depths, stretchings), gravities, densities, points and dates", "why_tests_cant": "statement about partial derivatives of functions of four real variables", "anchors": ["code/environment_models/src/Airy.cpp: orbital_velocity, dynamic_pressure", "code/environment_models/src/discretize.cpp: dynamic_pressure_factor", "code/core/src/SurfaceElevationFromWaves.cpp"]}
{"id": "C84", "title": "Free surface conditions", "statement": "The vertical orbital velocity at the mean surface is the time derivative of the elevation, and the dynamic pressure there balances the weight of the elevation, for the gravity of the simulation.", "quantifier": "all wave models, gravities, points and dates", "why_tests_cant": "statement about derivatives of functions of real variables", "anchors": ["code/environment_models/src/Airy.cpp", "code/environment_models/src/WaveSpectralDensity.cpp: get_wave_number"]}
{"id": "C85", "title": "Dispersion relation", "statement": "Every wave of an accepted finite depth spectrum satisfies omega^2 = g k tanh(k h), the derivatives given to the root finder are exact, and a spectrum with a wave longer than twenty depths is refused.", "quantifier": "all spectra, depths and frequency grids, all root finders that find a root of their bracket when there is one", "why_tests_cant": "continuum; existence of a root for every accepted input", "anchors": ["code/environment_models/src/WaveNumberFunctor.cpp", "code/environment_models/src/WaveSpectralDensity.cpp: get_wave_number", "code/environment_models/src/discretize.cpp"]}
{"id": "C86", "title": "The depth of the input file is used", "statement": "A positive depth gives the waves of that depth, and the depth 0 gives infinite depth.", "quantifier": "all wave inputs", "why_tests_cant": "all depths and spectra", "anchors": ["code/parser_extensions/src/builders.cpp: parse_directional_spectrum"]}
{"id": "C87", "title": "Spectral densities", "statement": "Spectral densities are non-negative, have the area Hs^2/16 and peak at the period Tp; Pierson-Moskowitz is Bretschneider.", "quantifier": "all significant heights, periods, peak factors and frequencies", "why_tests_cant": "integral over a continuum", "anchors": ["code/environment_models/src/BretschneiderSpectrum.cpp", "code/environment_models/src/JonswapSpectrum.cpp", "code/environment_models/src/PiersonMoskowitzSpectrum.cpp"]}
{"id": "C88", "title": "Directional spreadings", "statement": "The spreading is a non-negative number for every direction, even about the main direction and periodic, and the grid of directions keeps the energy of the sea.", "quantifier": "all exponents, directions and grids", "why_tests_cant": "continuum of directions and exponents", "anchors": ["code/environment_models/src/Cos2sDirectionalSpreading.cpp", "code/environment_models/src/WaveDirectionalSpreading.cpp", "code/environment_models/src/discretize.cpp: flatten"]}
{"id": "C89", "title": "Response operators applied to the waves", "statement": "An operator of gain 1 and phase 0 returns the elevation, a phase - omega tau is a delay, the response is linear in the gains, and tables of the wrong size are refused.", "quantifier": "all wave models, points, dates, gains and phases", "why_tests_cant": "all real inputs", "anchors": ["code/core/src/SurfaceElevationInterface.cpp: evaluate_rao", "code/environment_models/src/Airy.cpp: evaluate_rao"]}
{"id": "C90", "title": "Malformed gRPC requests are refused", "statement": "A gRPC request in which a list of states does not have as many elements as the list of dates is refused, before anything is given to the simulator, with a message that names exactly the lists at fault and gives both sizes; the others are read without any out-of-range access.", "quantifier": "all requests of the co-simulation and model exchange services, with quaternions or Euler angles", "why_tests_cant": "all sizes of fourteen lists", "anchors": ["code/executables/src/CosimulationServiceImpl.cpp: check_states_size", "code/executables/src/ModelExchangeServiceImpl.cpp: check_states_size"]}
{"id": "C91", "title": "The simulator is given the request", "statement": "A gRPC step (or derivative) is computed from the states of the request: the last state, at its date, and the previous ones, with their dates, for the force models that need the past.", "quantifier": "all requests, durations and histories", "why_tests_cant": "all requests of any length", "anchors": ["code/executables/src/CosimulationServiceImpl.cpp: from_grpc", "code/executables/src/ModelExchangeServiceImpl.cpp: from_grpc", "code/observers_and_api/src/SimServerInputs.cpp"]}
{"id": "C92", "title": "Answer of a gRPC step", "statement": "The answer to a co-simulation step contains all the states computed, in order, one list per quantity, and the last of them separately; a step without result is an internal error.", "quantifier": "all results of the simulator", "why_tests_cant": "lists of any length", "anchors": ["code/executables/src/CosimulationServiceImpl.cpp: to_grpc"]}
{"id": "C93", "title": "Answer of a gRPC model exchange", "statement": "The answer contains the derivatives computed by the simulator, in order, and the rates of the Euler angles: the derivatives of the angles of an attitude that turns at the rates p, q, r; both services answer every well formed request.", "quantifier": "all requests, attitudes away from pitch +-90 degrees, rotation rates", "why_tests_cant": "derivatives of functions of a real variable; all requests", "anchors": ["code/executables/src/ModelExchangeServiceImpl.cpp: get_euler_derivative, to_grpc, dx_dt_euler_321, dx_dt_quaternion"]}
{"id": "C94", "title": "Errors of distant models stop the simulation", "statement": "When a call to a distant (gRPC) force or wave model returns an error, the simulation stops with an error: no force and no wave is ever computed from the response of a failed call.", "quantifier": "all status codes, all distant servers", "why_tests_cant": "all codes and servers", "anchors": ["code/grpc/src/GRPCForceModel.cpp: throw_if_invalid_status, force", "code/grpc/src/SurfaceElevationFromGRPC.cpp: throw_if_invalid_status"]}
{"id": "C95", "title": "Request to a distant force model", "statement": "A distant force model receives the states of the body over exactly the duration it asked for, all lists having the same length, with the Euler angles of each attitude; the force applied to the body is the one of its answer.", "quantifier": "all histories, durations, servers and answers", "why_tests_cant": "all histories of any length", "anchors": ["code/grpc/src/ToGRPC.cpp: from_state, from_force_request", "code/grpc/src/FromGRPC.cpp: to_force", "code/grpc/src/GRPCForceModel.cpp: force"]}
{"id": "C96", "title": "Wave data for a distant force model", "statement": "The elevations, pressures, velocities, spectra and RAO grids sent to a distant force model are those of the wave model, at the points and dates it asked for; the simulation stops if there is no wave model.", "quantifier": "all requests of the force model, all wave models, all dates", "why_tests_cant": "all requests and wave models", "anchors": ["code/grpc/src/FromGRPC.cpp: to_wave_request", "code/grpc/src/ToGRPC.cpp: from_wave_information"]}
{"id": "C97", "title": "Waves from a distant server", "statement": "The elevations, pressures, velocities and spectra used by the simulator are those of the answers of the distant wave model, for any number of points and spectra.", "quantifier": "all distant wave servers, points and spectra", "why_tests_cant": "lists of any length", "anchors": ["code/grpc/src/SurfaceElevationFromGRPC.cpp: elevations, dynamic_pressures, orbital_velocities, directional_spectra"]}
{"id": "C98", "title": "Groups of waterline edges", "statement": "The edges lying on the free surface are grouped into connected components: two edges are in the same group exactly when one can go from one to the other along those edges; each edge is in exactly one group.", "quantifier": "all lists of edges and subsets of them", "why_tests_cant": "graphs of any size", "anchors": ["code/mesh/src/ClosingFacetComputer.cpp: group_connected_edges, get_connected_components, get_edges_per_component"]}
{"id": "C99", "title": "The contour of a closed waterline goes once around it", "statement": "When the edges of a group form a closed line, the contour used to close the hull contains each of them exactly once, and goes around the nodes in their order, whatever the numbering, order and directions of the edges and whatever the positions of the points.", "quantifier": "all closed lines of any length, all numberings and directions, all positions", "why_tests_cant": "lists of any length and all orders of them", "anchors": ["code/mesh/src/ClosingFacetComputer.cpp: contour, next_edge, extreme_edges"]}
{"id": "C100", "title": "The closing facet is oriented upwards", "statement": "The contour of a closed waterline is run so that the closing facet has its normal in the direction opposite to z.", "quantifier": "all closed waterlines", "why_tests_cant": "all polygons", "anchors": ["code/mesh/src/ClosingFacetComputer.cpp: contour, direct_orientation"]}
{"id": "C101", "title": "Contours are closed paths", "statement": "Whatever the edges, the search of a contour reads nothing outside of the tables and ends with an error or with edges that follow each other and come back to the first one.", "quantifier": "all sets of edges, all positions", "why_tests_cant": "graphs of any size and shape", "anchors": ["code/mesh/src/ClosingFacetComputer.cpp: contour, next_edge, need_to_reverse"]}
{"id": "C102", "title": "The immersed hull and its lids are watertight", "statement": "When no node of a watertight mesh of triangles is exactly on the water surface, the immersed facets after an update (the wet part of each triangle) and the closing facets on its waterlines enclose a volume, whatever updates and volume queries were made before.", "quantifier": "all watertight meshes of triangles, all histories of updates and queries, all water surfaces", "why_tests_cant": "infinitely many meshes, positions and histories", "anchors": ["code/mesh/src/MeshIntersector.cpp: update_intersection_with_free_surface, update_closing_facet, build_closing_edge, center_of_mass_immersed", "code/mesh/src/ClosingFacetComputer.cpp: contour"]}
{"id": "C103", "title": "Archimedes for a floating mesh", "statement": "In still water, the volume and the centre reported for the immersed part of a floating watertight mesh are those of the displaced water, and the hydrostatic force and moment are the weight of that water and the integral of the water pressure on the wet hull.", "quantifier": "all watertight meshes of triangles, all attitudes and drafts, all histories", "why_tests_cant": "infinitely many meshes and positions", "anchors": ["code/mesh/src/MeshIntersector.cpp: center_of_mass, center_of_mass_immersed", "code/force_models/src/HydrostaticForceModel.cpp: get_force"]}
{"id": "C104", "title": "Inertia matrices of a body are checked", "statement": "A body is accepted exactly when its rigid body inertia and its total inertia (with the added mass) are 6x6, symmetric and positive definite; it is refused with an error otherwise.", "quantifier": "all matrices given in the YAML file", "why_tests_cant": "continuum of matrices", "anchors": ["code/core/src/BodyBuilder.cpp: isSymmetric, isSymmetricDefinitePositive, add_inertia, convert"]}
{"id": "C105", "title": "Newton's law for accepted bodies", "statement": "For every accepted body, attitude and set of forces, the accelerations computed are the unique solution of (rigid body inertia + added mass) * acceleration = forces, the kinetic energy of any motion is positive and its rate of change is the power of the forces.", "quantifier": "all accepted inertia matrices, forces, states", "why_tests_cant": "continuum of matrices and forces", "anchors": ["code/core/src/BodyBuilder.cpp: add_inertia", "code/core/src/Body.cpp: calculate_state_derivatives"]}
{"id": "C106", "title": "Similitude of the rudder and of the propeller", "statement": "Multiplying the speeds of the ship and of the propeller by k multiplies the thrust, the torque and the lift of the rudder by k squared.", "quantifier": "all speeds, angles, rudders, propellers and factors", "why_tests_cant": "continuum of speeds", "anchors": ["code/force_models/src/RudderForceModel.cpp: get_rudder_force, get_lift", "code/force_models/src/AbstractWageningen.cpp: get_force"]}
{"id": "C107", "title": "Every force of the input file acts once on its body", "statement": "When a simulation is built, each body gets exactly one force model for each model listed in its sections, in the same order, built from the text of the model and for this body; a file with a model the program does not know, or listed in the wrong section, is refused, and a correct file is accepted.", "quantifier": "all input files: any number of bodies and models, any set of registered models", "why_tests_cant": "files of any length", "anchors": ["code/core/src/SimulatorBuilder.cpp: add, forces_from, controllable_forces_from, get_forces, get_controlled_forces", "code/core/src/Sim.cpp: Sim::Impl"]}
{"id": "C108", "title": "The state history kept is long enough", "statement": "For each body, the history of the states kept covers the longest history required by a model acting on it, controlled or not, and is not longer than needed.", "quantifier": "all sets of bodies and models, all durations", "why_tests_cant": "lists of any length", "anchors": ["code/core/src/SimulatorBuilder.cpp: get_max_history_length, get_bodies"]}
{"id": "C109", "title": "Simulations start from the states of the input file", "statement": "For any number of bodies, the initial state has 13 values per body, which are the position and velocities of the file and a quaternion that represents the attitude of the file (also near 180 degrees).", "quantifier": "all bodies, positions, attitudes, velocities", "why_tests_cant": "continuum of attitudes, any number of bodies", "anchors": ["code/core/src/update_kinematics.cpp: get_initial_states", "code/core/src/yaml2eigen.cpp: angle2matrix"]}
{"id": "C110", "title": "Rotation conventions are understood or refused", "statement": "A rotation convention is either the documented one, and angles are then read as yaw, pitch, roll, or refused with an error; the conventions accepted by the check of the input are usable.", "quantifier": "all conventions and angles", "why_tests_cant": "all strings", "anchors": ["code/core/src/yaml2eigen.cpp: angle2matrix, match", "code/yaml_parser/src/check_input_yaml.cpp: check_rotations, is_an_axis"]}
{"id": "C111", "title": "At most one wave model", "statement": "A simulation has the wave model of the file when there is one, none when there is none; two wave models or an unknown one are refused.", "quantifier": "all lists of environment models", "why_tests_cant": "lists of any length", "anchors": ["code/core/src/SimulatorBuilder.cpp: get_wave"]}
{"id": "C112", "title": "Forces do not depend on the order of the models", "statement": "The sum of the forces and the derivative of the position are the same whatever the order of the force models in the input file.", "quantifier": "all lists of models, states, instants", "why_tests_cant": "lists of any length and all their permutations", "anchors": ["code/core/src/Sim.cpp: sum_of_forces", "code/force_models/src/GMForceModel.cpp: get_gz_for_shifted_states", "code/core/src/Body.cpp: update, calculate_state_derivatives"]}
{"id": "C113", "title": "Computing GM does not change the motion", "statement": "A simulation that computes the metacentric height follows the same path as the one that only uses its hydrostatic model: the derivative of the position is the velocity of the ship.", "quantifier": "all lists of models, states, roll steps", "why_tests_cant": "continuum of states and steps", "anchors": ["code/force_models/src/GMForceModel.cpp: operator(), get_gz_for_shifted_states", "code/core/src/Body.cpp: update_kinematics, calculate_state_derivatives"]}
{"id": "C114", "title": "GM is the slope of GZ", "statement": "The metacentric height written by the simulator is a slope of the curve of righting levers next to the current heel, and the GZ written is the one of the current heel.", "quantifier": "all ships, attitudes and roll steps", "why_tests_cant": "continuum of curves and steps", "anchors": ["code/force_models/src/GMForceModel.cpp: operator(), get_shifted_states, extra_observations", "code/force_models/src/calculate_gz.cpp: calculate_gz"]}
{"id": "C115", "title": "Commands reach their model", "statement": "The value a controlled model reads for a command is the one written for this model and this command in the section 'commands' (a constant, or a table interpolated in time); a command that is not in the file is an error.", "quantifier": "all lists of commands, names, instants", "why_tests_cant": "names and lists of any length", "anchors": ["code/parser_extensions/src/listeners.cpp: make_command_listener, add, namify", "code/core/src/ControllableForceModel.cpp: get_command, get_commands"]}
{"id": "C116", "title": "Reported controlled forces", "statement": "The force and torque written for a controlled force model are, in its own frame, those computed by the model, wherever the ship is.", "quantifier": "all frames, centres of gravity, positions of the ship, forces", "why_tests_cant": "continuum of positions", "anchors": ["code/core/src/Sim.cpp: output", "code/core/src/ControllableForceModel.cpp: feed"]}
{"id": "C117", "title": "Answers of the websocket servers are JSON", "statement": "The text sent back by the co-simulation and model-exchange servers for a successful request is a JSON document with every state (or derivative) and every extra observation under its own name.", "quantifier": "all lists of states, observations, numbers", "why_tests_cant": "texts of any length, special values", "anchors": ["code/yaml_parser/src/parse_history.cpp: encode_YamlStates, operator<<", "code/executables/src/xdyn_for_me.cpp: SimulationMessage::operator()", "code/executables/src/xdyn_for_cs.cpp: SimulationMessage::operator()"]}
{"id": "C118", "title": "Requests of the websocket servers", "statement": "Exactly the JSON documents with the documented members are accepted, each value is read under its own name, the states of an answer can be sent back in the next request without any change, and no request leads to undefined behaviour.", "quantifier": "all texts", "why_tests_cant": "texts of any length", "anchors": ["code/yaml_parser/src/parse_history.cpp: decode_YamlSimServerInputs, encode_YamlStates"]}
{"id": "C119", "title": "Failed requests are answered", "statement": "A request that fails is answered with exactly one JSON document that has the text of the error.", "quantifier": "all exceptions and messages", "why_tests_cant": "texts of any length", "anchors": ["code/executables/src/report_xdyn_exceptions_to_user.cpp: report_xdyn_exceptions_to_user", "code/executables/src/xdyn_for_cs.cpp: SimulationMessage::operator(), replace_newlines_by_spaces"]}
{"id": "C120", "title": "Exit status of the simulator", "statement": "The simulator exits with the status 0 if and only if the simulation was run to its end, and a failure is displayed.", "quantifier": "all command lines, all outcomes of the simulation", "why_tests_cant": "all exceptions", "anchors": ["code/executables/src/xdyn.cpp: main, run, run_simulation", "code/executables/src/report_xdyn_exceptions_to_user.cpp: report_xdyn_exceptions_to_user"]}
{"id": "C121", "title": "Programs only start with valid arguments", "statement": "A simulation or a server is only started when the command line was understood, has an input file and usable values (positive time step, usable port), and never when the help was asked for.", "quantifier": "all command lines", "why_tests_cant": "all values of the options, NaN included", "anchors": ["code/executables/src/parse_XdynCommandLineArguments.cpp: invalid, parse_command_line_for_xdyn", "code/executables/src/xdyn.cpp: main", "code/executables/src/xdyn_for_cs.cpp: main", "code/executables/src/xdyn_for_me.cpp: main"]}
{"id": "C122", "title": "The solver asked for is used", "statement": "The integration scheme used is the one named on the command line; an unknown name is an error.", "quantifier": "all names", "why_tests_cant": "all strings", "anchors": ["code/executables/src/xdyn.cpp: solve", "code/observers_and_api/src/SimStepper.cpp: step"]}
{"id": "C123", "title": "Outputs of the input file", "statement": "Each entry of the section 'output' of the input file gives an output with its format, place and data, or an error is reported.", "quantifier": "all lists of entries, with missing or wrong keys", "why_tests_cant": "lists of any length", "anchors": ["code/yaml_parser/src/parse_output.cpp: parse_output", "code/observers_and_api/src/ListOfObservers.cpp: ListOfObservers"]}
{"id": "C124", "title": "Outputs of the command line", "statement": "With -o, all the states and angles of all the bodies and the date are written to the file asked for, after the outputs of the input file; the wave heights asked for with -w are written exactly once.", "quantifier": "all command lines, bodies, input files", "why_tests_cant": "lists and names of any length", "anchors": ["code/executables/src/build_observers_description.cpp: build_observers_description", "code/yaml_parser/src/parse_output.cpp: generate_default_outputter_with_all_states_in_it, get_format_for_wave_observer"]}
{"id": "C125", "title": "The mesh of a body is the mesh of its file", "statement": "The mesh used for a body is the one of the STL file seen from the frame of the body: each point is at its place relative to that frame, and the facets, normals, areas, centres, edges and the orientation are those of the mesh that would be built from the points in that frame.", "quantifier": "all lists of polygons, positions and rotations of the frame", "why_tests_cant": "meshes of any size, exact geometry", "anchors": ["code/core/src/BodyBuilder.cpp: change_mesh_ref_frame", "code/mesh/src/MeshBuilder.cpp: MeshBuilder::build"]}
{"id": "C126", "title": "The intersection with the free surface has no memory", "statement": "The facets, edges and nodes obtained by cutting a hull with the free surface depend on the mesh and on the present immersions only: not on the previous updates, on the volumes that were asked for, nor on the frame in which the mesh was read.", "quantifier": "all triangle meshes, all histories of updates and queries", "why_tests_cant": "unbounded histories", "anchors": ["code/mesh/src/MeshIntersector.cpp: update_intersection_with_free_surface, reset_dynamic_members", "code/mesh/src/Mesh.cpp: reset_dynamic_data"]}
{"id": "C127", "title": "The Froude-Krylov force is the resultant of the dynamic pressure", "statement": "For a hull made of triangles, the force is minus the sum over the wet parts of the triangles of the dynamic pressure of the waves at the centroid times the area along the normal, with the torque about the centre of gravity; it is zero without waves and for a hull in the air; the computation never accesses an array out of range.", "quantifier": "all triangle meshes without degenerate triangle, positions, sea states, dates, histories", "why_tests_cant": "meshes and spectra of any size, exact geometry", "anchors": ["code/force_models/src/FroudeKrylovForceModel.cpp: get_dF", "code/core/src/SurfaceForceModel.cpp: operator()", "code/core/src/BodyWithSurfaceForces.cpp: update_intersection_with_free_surface", "code/core/src/SurfaceElevationInterface.cpp: update_surface_elevation, get_dynamic_pressure"]}
{"id": "C128", "title": "The Froude-Krylov force depends on the present only", "statement": "The Froude-Krylov force depends on the hull, its position and the sea at that date only: not on the previous positions nor on the queries made by the other models; in waves that all have the same frequency it is the same after one period.", "quantifier": "all triangle meshes without degenerate triangle, positions, sea states, dates, histories", "why_tests_cant": "unbounded histories", "anchors": ["code/force_models/src/FroudeKrylovForceModel.cpp: get_dF", "code/core/src/SurfaceForceModel.cpp: operator()"]}
{"id": "C129", "title": "The Froude-Krylov force is a number", "statement": "For every mesh that is accepted, the Froude-Krylov force is a number.", "quantifier": "all triangle meshes", "why_tests_cant": "degenerate geometry", "anchors": ["code/force_models/src/FroudeKrylovForceModel.cpp: get_dF", "code/mesh/src/mesh_manipulations.cpp: centre_of_gravity"]}
{"id": "C130", "title": "Servers and several bodies", "statement": "A server started with an input file describing any number of bodies answers a request with the derivatives (or the states) of these bodies, or refuses it with an error; it never reads outside the states it received.", "quantifier": "all numbers of bodies, all requests", "why_tests_cant": "unbounded number of bodies and requests", "anchors": ["code/observers_and_api/src/XdynForME.cpp: calculate_dx_dt", "code/core/src/Sim.cpp: set_bodystates, dx_dt", "code/observers_and_api/src/SimServerInputs.cpp: SimServerInputs", "code/observers_and_api/src/SimStepper.cpp: step"]}
{"id": "C131", "title": "HDF5 time series", "statement": "After any number of steps, an HDF5 output holds for each requested number one dataset below /outputs at the address of the variable, whose k-th value is the last value written for it at or before the k-th instant, one value per instant; what the file held before is untouched, and only the requested datasets and the groups leading to them are new.", "quantifier": "all requests, addresses, numbers of steps and previous contents of the file", "why_tests_cant": "unbounded number of steps, requests and files", "anchors": ["code/observers_and_api/src/Hdf5Observer.cpp: Hdf5Observer", "code/interface_hdf5/src/h5_tools.cpp: H5_Tools"]}
{"id": "C132", "title": "HDF5 addresses", "statement": "Every set of variables that a user can request (dates, states, efforts, GM, GZ, buoyancy centres, ...) can be stored in one HDF5 file, each variable in a dataset of its own.", "quantifier": "all sets of variables, bodies and force models", "why_tests_cant": "all names of bodies and forces", "anchors": ["code/observers_and_api/src/Hdf5Observer.cpp: get_serializer", "code/force_models/src/GMForceModel.cpp: extra_observations", "code/force_models/src/HydrostaticForceModel.cpp: extra_observations", "code/grpc/src/GRPCForceModel.cpp: extra_observations", "code/core/src/Body.cpp: feed"]}
{"id": "C133", "title": "HDF5 wave grids", "statement": "When the wave elevation is requested, /outputs/waves holds the dates, the x, the y and the matrices z of all the instants: line k of x and y and slice k of z are those of the grid of instant k.", "quantifier": "all grids, sizes and numbers of steps", "why_tests_cant": "unbounded sizes and number of steps", "anchors": ["code/observers_and_api/src/Hdf5WaveObserver.cpp: Hdf5WaveObserver", "code/observers_and_api/src/Hdf5WaveObserverBuilder.cpp: Hdf5WaveObserverBuilder"]}
{"id": "C134", "title": "HDF5 wave spectra", "statement": "The spectra stored before the simulation (omega, a, k, gamma, phase) and the formula stored with them give back the wave elevation that the simulator uses, at every point and date.", "quantifier": "all lists of discrete flat spectra, points and dates", "why_tests_cant": "all spectra, points and dates", "anchors": ["code/observers_and_api/src/Hdf5WaveSpectrumObserver.cpp: Hdf5WaveSpectrumObserver", "code/core/src/SurfaceElevationFromWaves.cpp: serialize_wave_spectra_before_simulation", "code/interface_hdf5/src/h5_tools.cpp: write"]}
{"id": "C135", "title": "HDF5 meshes", "statement": "The mesh stored in the HDF5 file, read back (faces index the points), is the mesh of the body with each polygon split into a fan of triangles: same triangles in the same order and orientation, same enclosed volume and moment.", "quantifier": "all meshes and previous contents of the file", "why_tests_cant": "all meshes", "anchors": ["code/external_file_formats/src/stl_io_hdf5.cpp: writeMeshToHdf5File", "code/executables/src/xdyn.cpp: serialize_context_if_necessary"]}
{"id": "C136", "title": "Stored command line", "statement": "The command stored in an HDF5 output, typed again, runs the same simulation: same files, dates, time step, solver, outputs and flags.", "quantifier": "all command lines", "why_tests_cant": "all file names and numbers", "anchors": ["code/executables/src/xdyn.cpp: input_data_serialize", "code/executables/src/display_command_line_arguments.cpp: parse_input"]}
{"id": "C137", "title": "Reading of the input file", "statement": "What the simulator keeps of an input file is what the file says: every section that is present is read with its units converted, the optional sections that are absent take their documented value, and the file is refused exactly when it does not have the documented form; nothing in a file can lead to undefined behaviour of the reader.", "quantifier": "all trees of nodes, that is all well-formed YAML documents", "why_tests_cant": "all documents", "anchors": ["code/yaml_parser/src/SimulatorYamlParser.cpp: parse", "code/yaml_parser/src/external_data_structures_parsers.cpp: operator>>"]}
{"id": "C138", "title": "Rotation conventions", "statement": "A rotation convention of the input file is accepted by the rest of the simulator exactly when it is one of the documented ones.", "quantifier": "all lists of words", "why_tests_cant": "all lists of words", "anchors": ["code/yaml_parser/src/external_data_structures_parsers.cpp: operator>>", "code/core/src/EnvironmentAndFrames.cpp: set_rot", "code/core/src/yaml2eigen.cpp: angle2matrix"]}
{"id": "C139", "title": "Misspelt sections", "statement": "A section or a key of the input file whose name is not one of the documented ones is reported to the user.", "quantifier": "all names of sections and all documents", "why_tests_cant": "all documents", "anchors": ["code/yaml_parser/src/SimulatorYamlParser.cpp: parse", "code/yaml_parser/src/external_data_structures_parsers.cpp: operator>>"]}
{"id": "C140", "title": "Lists of the input file", "statement": "Where the input file must give a list, a single word is refused, and all the elements of a list are read in their order.", "quantifier": "all nodes", "why_tests_cant": "all documents", "anchors": ["code/yaml_parser/src/external_data_structures_parsers.cpp: operator>>", "code/yaml_parser/src/SimulatorYamlParser.cpp: parse"]}
{"id": "C141", "title": "Matrices given twice", "statement": "A matrix (inertia, added mass) given in two ways in the input file is refused.", "quantifier": "all documents", "why_tests_cant": "all documents", "anchors": ["code/yaml_parser/src/external_data_structures_parsers.cpp: operator>>"]}
{"id": "C142", "title": "Commands section", "statement": "Each line of the commands section gives as many values as dates for each of its commands, in the units of the file, for the model of its name; the other keys are commands.", "quantifier": "all commands sections", "why_tests_cant": "all documents", "anchors": ["code/yaml_parser/src/parse_commands.cpp: parse_command_yaml", "code/yaml_parser/src/external_data_structures_parsers.cpp: operator>>"]}
{"id": "C143", "title": "Seed of the phases", "statement": "The seed of the random phases of a wave model is the positive integer of the file, or none for the word none; anything else is refused.", "quantifier": "all nodes", "why_tests_cant": "all documents", "anchors": ["code/yaml_parser/src/environment_parsers.cpp: parse_airy"]}
{"id": "C144", "title": "Reading of the waves section", "statement": "The waves section is read as documented (discretisation, spectra, stretching, output mesh), with units converted, and refused exactly when it does not have the documented form.", "quantifier": "all nodes", "why_tests_cant": "all documents", "anchors": ["code/yaml_parser/src/environment_parsers.cpp: parse_waves"]}
{"id": "C145", "title": "Errors in the wave output section", "statement": "An error in the output section of any wave model (missing or misspelt bound, number of points that is not a number, ...) is reported.", "quantifier": "all nodes and all wave models", "why_tests_cant": "all documents", "anchors": ["code/yaml_parser/src/environment_parsers.cpp: parse_default_wave_model, parse_grpc, parse_waves, operator>>"]}
{"id": "C146", "title": "Energy fraction", "statement": "Only the components of the sea that hold the given fraction of the energy are kept.", "quantifier": "all waves sections and fractions", "why_tests_cant": "all documents", "anchors": ["code/yaml_parser/src/environment_parsers.cpp: operator>>", "code/parser_extensions/src/builders.cpp: parse_directional_spectrum", "code/environment_models/src/discretize.cpp: discretize"]}
{"id": "C147", "title": "Regular wave of the file", "statement": "A dirac spectrum with a dirac spreading and the airy model gives a regular wave of the height, angular frequency and direction of the file, with the dispersion relation of the depth of the file; unknown models, spectra and spreadings are refused.", "quantifier": "all waves sections, points and dates", "why_tests_cant": "all documents, points and dates", "anchors": ["code/parser_extensions/src/builders.cpp: try_to_parse, parse_directional_spectrum", "code/yaml_parser/src/environment_parsers.cpp: parse_dirac_spectral_density, parse_dirac_directional_spreading"]}
{"id": "C148", "title": "NaN in the states", "statement": "As soon as a state of the ship becomes NaN, the simulation stops with an error that says so, and no row of the outputs has a NaN.", "quantifier": "all systems of forces, steppers, numbers of steps and initial states", "why_tests_cant": "all trajectories", "anchors": ["code/core/src/Body.cpp: update", "code/core/src/Sim.cpp: operator(), dx_dt", "code/core/inc/solver.hpp: quicksolve"]}
{"id": "C149", "title": "Equations of a maneuvering model", "statement": "The force of a maneuvering model is made of the values of X, Y, Z, K, M and N in the unique solution of the equations of its section, whatever the order in which the equations are written; when a name has no equation or depends on itself and is needed, the computation of the force fails.", "quantifier": "all sections with equations in the usual notation, all states, dates and commands", "why_tests_cant": "all systems of equations, orders and histories", "anchors": ["code/force_models/src/ManeuveringForceModel.cpp: parse, ManeuveringForceModel, get_force", "code/force_models/src/maneuvering_DataSource_builder.cpp: build_ds", "code/force_models/src/maneuvering_compiler.cpp: compile"]}
{"id": "C150", "title": "Commands of another model", "statement": "A maneuvering model can use in its expressions the commands of any other force model by their full name model(command).", "quantifier": "all names of models and commands, all expressions", "why_tests_cant": "all names and expressions", "anchors": ["code/force_models/src/maneuvering_compiler.cpp: compile", "code/force_models/inc/maneuvering_grammar.hpp: grammar", "code/core/src/ControllableForceModel.cpp: get_commands"]}
{"id": "C151", "title": "Sections of the force models", "statement": "The section of a constant force, of a heading or station-keeping controller, of linear hydrostatics, of GM, of diffraction, of radiation damping, of a resistance curve, of a propeller (B-series or tabulated) or of a rudder is read as it is written, in the units given, and is refused with an error when something is missing or malformed; the B-series is accepted for 2 to 7 blades and a blade area ratio from 0.3 to 1.05 only.", "quantifier": "all sections", "why_tests_cant": "all documents", "anchors": ["code/force_models/src/ConstantForceModel.cpp: parse", "code/force_models/src/SimpleHeadingKeepingController.cpp: parse", "code/force_models/src/SimpleStationKeepingController.cpp: parse", "code/force_models/src/LinearHydrostaticForceModel.cpp: parse, LinearHydrostaticForceModel", "code/force_models/src/GMForceModel.cpp: parse", "code/force_models/src/DiffractionForceModel.cpp: parse", "code/force_models/src/RadiationDampingForceModel.cpp: parse", "code/force_models/src/ResistanceCurveForceModel.cpp: parse", "code/force_models/src/AbstractWageningen.cpp: parse", "code/force_models/src/WageningenControlledForceModel.cpp: parse, WageningenControlledForceModel", "code/force_models/src/KtKqForceModel.cpp: parse", "code/force_models/src/RudderForceModel.cpp: parse"]}
{"id": "C152", "title": "Sense of rotation of a propeller", "statement": "The thrust and the torque of a propeller are those of the open-water coefficients for the parameters of its section, the sign of the torque being given by the sense of rotation, clockwise or anti-clockwise; any other sense of rotation is refused.", "quantifier": "all sections, coefficients, speeds and rotation rates", "why_tests_cant": "all documents and states", "anchors": ["code/force_models/src/AbstractWageningen.cpp: parse, AbstractWageningen, get_force"]}
{"id": "C153", "title": "Sections of the damping matrices", "statement": "The section of a linear or quadratic damping is read as a matrix of six rows of six numbers, and the force is the opposite of its product by the velocities (or their signed squares); any other content is refused with an error.", "quantifier": "all sections and velocities", "why_tests_cant": "all documents", "anchors": ["code/force_models/src/LinearDampingForceModel.cpp: parse, get_force_and_torque", "code/force_models/src/QuadraticDampingForceModel.cpp: parse, get_force_and_torque", "code/force_models/src/DampingForceModel.cpp: operator()"]}
{"id": "C154", "title": "Resistance curve", "statement": "A resistance curve opposes the tabulated resistance to the surge velocity, along the x axis of the body and at the hydrodynamic calculation point, without any other component; an empty table is refused.", "quantifier": "all tables, speeds and interpolators through the points of the table", "why_tests_cant": "all tables and speeds", "anchors": ["code/force_models/src/ResistanceCurveForceModel.cpp: parse, Impl, operator()"]}
{"id": "C155", "title": "Tabulated propeller", "statement": "The thrust and torque of a propeller given by tables of Kt and Kq are those of the table at the advance ratio, and an advance ratio outside the table stops the simulation with an error.", "quantifier": "all tables, speeds and rotation rates, all interpolators through the points of the tables that refuse the points outside", "why_tests_cant": "all tables and states", "anchors": ["code/force_models/src/KtKqForceModel.cpp: parse, Impl, get_Kt, get_Kq", "code/force_models/src/AbstractWageningen.cpp: advance_ratio, get_force"]}
{"id": "C156", "title": "Section of a constant force", "statement": "A constant force given in a frame with the axes of the body acts at its point of application: its force is the one of the section and its torque about the centre of gravity adds the moment of the force; an unknown frame is refused.", "quantifier": "all sections, points and centres of gravity", "why_tests_cant": "all documents", "anchors": ["code/force_models/src/ConstantForceModel.cpp: parse, ConstantForceModel, operator()"]}
{"id": "C157", "title": "Reading of ASCII STL files", "statement": "A text STL file is read if and only if it is made of facets (a facet normal line, a line, three vertex lines, two lines), blank lines, comments and colours and has an endsolid, and what is read is the vertices of its facets in the order of the file, whatever the names, normals, indentation and comments.", "quantifier": "all files whose lines have at most 255 characters and no null character, all contents", "why_tests_cant": "all texts", "anchors": ["code/external_file_formats/src/stl_reader.cpp: read_ascii_stl, read_vertex, read_normal, read_stl"]}
{"id": "C158", "title": "Damaged ASCII STL files", "statement": "A text STL file that is truncated, has missing coordinates, unexpected words or too long lines is refused with an error, never read as something else.", "quantifier": "all texts", "why_tests_cant": "all texts and truncations", "anchors": ["code/external_file_formats/src/stl_reader.cpp: read_ascii_stl, read_vertex, read_normal"]}
{"id": "C159", "title": "Locale after reading a mesh", "statement": "Reading an STL file leaves the locale of the process as it was, whether the file is accepted or refused.", "quantifier": "all files, all locales", "why_tests_cant": "all failures", "anchors": ["code/external_file_formats/src/stl_reader.cpp: read_ascii_stl"]}
{"id": "C160", "title": "Table of the righting lever tool", "statement": "For valid options the gz program writes a header and one line per heel angle, in degrees, from -phi_max to phi_max, with the righting lever at that angle, separated by a tabulation on the screen and by a semicolon in a file.", "quantifier": "all options, hulls and curves", "why_tests_cant": "all options", "anchors": ["code/executables/src/gz.cpp: main, write, get_gz_data"]}
{"id": "C161", "title": "Errors of the righting lever tool", "statement": "When its options are invalid, its table cannot be written or a computation fails, the gz program says so and its exit status is not zero.", "quantifier": "all command lines and failures", "why_tests_cant": "all failures", "anchors": ["code/executables/src/gz.cpp: main, invalid, get_gz_data"]}
{"id": "C162", "title": "Conversion of quaternions", "statement": "The program that converts a quaternion displays the three angles, in degrees, of the same attitude, and refuses any number of arguments but four.", "quantifier": "all command lines", "why_tests_cant": "all quaternions", "anchors": ["code/executables/src/convert_quaternion_to_euler.cpp: main, convert"]}
{"id": "C163", "title": "Meshes embedded in code", "statement": "The C++ code generated from a mesh defines a string from which the same mesh is read back (coordinates in single precision).", "quantifier": "all meshes", "why_tests_cant": "all meshes", "anchors": ["code/executables/src/convert_stl_files_to_code.cpp: write_binary_cpp, main", "code/binary_stl_data/src/generate_test_ship.cpp: test_ship"]}
{"id": "C164", "title": "A mesh written as text is read back", "statement": "A mesh of triangles written in the text STL format is read back with the same facets and vertices, in the same order, each coordinate being the one its printed digits denote.", "quantifier": "all meshes, all formats of numbers whose text is one word", "why_tests_cant": "all meshes", "anchors": ["code/external_file_formats/src/stl_writer.cpp: write_stl", "code/external_file_formats/src/stl_reader.cpp: read_stl"]}
{"id": "C165", "title": "Meshes with facets that are not triangles", "statement": "A mesh that has a facet of another number of vertices than three is not silently changed by writing it as text and reading it back.", "quantifier": "all meshes", "why_tests_cant": "all numbers of vertices", "anchors": ["code/external_file_formats/src/stl_writer.cpp: write_stl", "code/external_file_formats/src/stl_reader.cpp: read_ascii_stl"]}
{"id": "C166", "title": "Efforts reported with the states", "statement": "The efforts reported with a state are those the models give in that state at that instant.", "quantifier": "all bodies, force models, schedules of instants and numbers of steps", "why_tests_cant": "all histories", "anchors": ["code/core/src/Sim.cpp: operator(), output", "code/core/src/ForceModel.cpp: update, feed", "code/core/inc/solver.hpp: quicksolve"]}
{"id": "C167", "title": "Forced velocities are those at which the ship moves", "statement": "While a table forces a velocity of a body, the body moves at that velocity and every effort on it is computed with that velocity.", "quantifier": "all tables, bodies, efforts, dates and numbers of steps", "why_tests_cant": "all histories", "anchors": ["code/core/src/Sim.cpp: dx_dt, sum_of_forces, force_states", "code/core/src/Body.cpp: update, calculate_state_derivatives", "code/core/src/BlockedDOF.cpp: force_states, force_state_derivatives", "code/core/inc/solver.hpp: quicksolve"]}
{"id": "C168", "title": "What the righting lever tool works on", "statement": "The tool that computes righting levers works on the body of the file with the mesh of the STL file, in calm water, under gravity and the hydrostatic force only: the other efforts, controllers and waves of the file have no effect on the result, and a file it cannot treat so is refused.", "quantifier": "all files, numbers of bodies, meshes and force models", "why_tests_cant": "all files", "anchors": ["code/gz_curves/src/make_sim_for_GZ.cpp: GZ::make_sim", "code/gz_curves/src/ResultantForceComputer.cpp: ResultantForceComputer", "code/observers_and_api/src/simulator_api.cpp: get_system"]}
{"id": "C169", "title": "Resultant of the efforts used by the righting lever tool", "statement": "For every depth, heel and trim, the vertical resultant is the weight of the body minus the weight of the water it displaces, the moments are those of the hydrostatic efforts about the centre of gravity, and the draught found by the tool balances the two weights.", "quantifier": "all hulls, masses, densities, depths, heels and trims", "why_tests_cant": "all positions, a continuum", "anchors": ["code/gz_curves/src/ResultantForceComputer.cpp: resultant", "code/gz_curves/src/GZCurve.cpp: zeq"]}
{"id": "C170", "title": "Volumes of the immersed and emerged parts", "statement": "The volumes given for the immersed and the emerged part of a hull are those enclosed by the part and the water plane, and a body heavier than the water its hull can displace is refused by the righting lever tool.", "quantifier": "all hulls and attitudes", "why_tests_cant": "all hulls", "anchors": ["code/mesh/src/MeshIntersector.cpp: immersed_volume, emerged_volume", "code/gz_curves/src/GZCurve.cpp: Curve::Impl"]}
{"id": "C171", "title": "The solvers proposed run a simulation", "statement": "Each of the solvers proposed by the programs (Euler, Runge-Kutta 4, Runge-Kutta-Cash-Karp) carries a simulation from its start to its end whenever the forces and the forced states can be computed at each evaluation; a name that is not that of a solver is an error.", "quantifier": "all numbers of bodies, initial states, steps, histories and force models", "why_tests_cant": "all simulations", "anchors": ["code/executables/src/xdyn.cpp: solve", "code/observers_and_api/src/SimStepper.cpp: step", "code/core/src/Body.cpp: update_body_states", "code/hdb_interpolators/src/History.cpp: record"]}
{"id": "C172", "title": "Forces see the state of the evaluation", "statement": "At each evaluation of the derivatives, whatever was recorded before, the current value of each state of a body seen by the force models is that of the vector given by the solver, or the forced value of the state; the states of the other bodies are left unchanged.", "quantifier": "all state vectors, dates and histories", "why_tests_cant": "all histories of evaluations", "anchors": ["code/core/src/Body.cpp: update, update_body_states", "code/hdb_interpolators/src/History.cpp: operator()"]}
{"id": "C173", "title": "Point of application of the rudder", "statement": "The effort of a propeller and its rudder on the body is that of the propeller at its position and of the rudder at its own, moved to the centre of gravity, for every orientation of the propeller.", "quantifier": "all propellers, rudders, positions, orientations, speeds and commands", "why_tests_cant": "all positions and orientations", "anchors": ["code/force_models/src/RudderForceModel.cpp: get_force", "code/core/src/ControllableForceModel.cpp: operator()"]}
{"id": "C174", "title": "A server answers the request only", "statement": "The answer of a co-simulation or model-exchange server depends on the input file and on the request only, not on the requests treated before, whether they succeeded or failed.", "quantifier": "all sequences of earlier requests, all requests, force models and solvers", "why_tests_cant": "all histories of requests", "anchors": ["code/observers_and_api/src/XdynForME.cpp: calculate_dx_dt", "code/observers_and_api/src/SimStepper.cpp: step", "code/core/src/Sim.cpp: set_bodystates, set_command_listener, reset_history"]}
{"id": "C175", "title": "The attitude stays a rotation during the integration", "statement": "Whatever the forces, solver, step and duration, the matrix used to turn speeds and forces between the body and the earth stays a rotation: the quaternion keeps norm 1, and the speed over ground is the speed of the body.", "quantifier": "all initial states of unit quaternion, numbers of bodies, forces, forced states, numbers and sizes of steps", "why_tests_cant": "all trajectories", "anchors": ["code/core/src/Sim.cpp: operator(), normalize_quaternions", "code/core/src/Body.cpp: calculate_state_derivatives, get_transform_from_ned_to_body", "code/core/src/BodyStates.cpp: get_rot_from_ned_to"]}
{"id": "C176", "title": "Calm water has no origin and no direction", "statement": "In calm water, without current or wind, moving all the bodies by the same horizontal distance moves every trajectory by that distance and changes nothing else; turning them all by the same angle about the vertical turns the trajectories and leaves depth, velocities in the body frames, and forces unchanged.", "quantifier": "all hulls, masses, numbers of bodies, initial states, horizontal displacements, angles, solvers, steps and durations, and all other forces that do not look at position or heading", "why_tests_cant": "all pairs of trajectories", "anchors": ["code/core/src/DefaultSurfaceElevation.cpp", "code/force_models/src/GravityForceModel.cpp", "code/force_models/src/FastHydrostaticForceModel.cpp", "code/core/src/Body.cpp: update_projection_of_z_in_mesh_frame, calculate_state_derivatives", "code/core/src/Sim.cpp: operator()"]}
{"id": "C177", "title": "Simulations without a wave model", "statement": "The section of the environment models may be empty. A force model that needs the free surface is then refused at the start, with a message that names it; every other simulation runs without using the wave model that does not exist.", "quantifier": "all lists of force models, hulls, positions, dates and numbers of evaluations", "why_tests_cant": "all combinations of models, all trajectories", "anchors": ["code/core/src/SimulatorBuilder.cpp: get_wave", "code/core/src/BodyWithSurfaceForces.cpp: update_intersection_with_free_surface", "code/force_models/src/LinearHydrostaticForceModel.cpp: get_zH", "code/force_models/src/HydrostaticForceModel.cpp: operator()", "code/force_models/src/FastHydrostaticForceModel.cpp", "code/force_models/src/ExactHydrostaticForceModel.cpp", "code/force_models/src/FroudeKrylovForceModel.cpp", "code/force_models/src/DiffractionForceModel.cpp", "code/force_models/src/GMForceModel.cpp"]}
{"id": "C178", "title": "The rudder feels the waves", "statement": "The efforts of the propeller and rudder model take the orbital velocity of the waves at the rudder into account; the speed of the ship in the water can be asked for any sea, position and velocity.", "quantifier": "all seas, rudders, propellers, positions, speeds and commands", "why_tests_cant": "all seas and states", "anchors": ["code/force_models/src/RudderForceModel.cpp: get_force, get_rudder_force, get_ship_speed", "doc_user/modeles_environnementaux.md"]}
{"id": "C179", "title": "A step cut into several requests", "statement": "A co-simulation client that asks for n1 steps, then for n2 steps starting from the last state it received, with the same commands, gets the dates and states of a single request of n1 + n2 steps, as long as the forces do not use the past.", "quantifier": "all forces without memory, commands, histories, numbers of steps, solvers that run (Euler, Runge-Kutta 4) and initial states", "why_tests_cant": "all cuts of all simulations", "anchors": ["code/observers_and_api/src/SimStepper.cpp: step", "code/observers_and_api/inc/simulator_api.hpp: simulate", "code/core/inc/solver.hpp: quicksolve", "code/core/src/Sim.cpp: output, normalize_quaternions, set_bodystates, reset_history"]}
{"id": "C180", "title": "Uniformly accelerated motion, free fall and rest", "statement": "A body that does not turn and whose efforts amount to a constant acceleration follows the parabola of the textbooks exactly with Runge-Kutta 4, for every step and number of steps, and lags by a.T.dt/2 with Euler; under its weight alone it falls by g.T^2/2; a body at rest where the efforts balance stays where it is, whatever the solver and the step.", "quantifier": "all initial positions, attitudes and velocities, accelerations, masses, time steps, numbers of steps, numbers of bodies and efforts on the other bodies", "why_tests_cant": "all simulations: a test checks one fall with one step", "anchors": ["code/core/src/Body.cpp: calculate_state_derivatives", "code/core/src/Sim.cpp: dx_dt", "code/force_models/src/GravityForceModel.cpp: operator()", "code/core/inc/solver.hpp: quicksolve"]}
{"id": "C181", "title": "Constants of the environment", "statement": "The density, viscosity and gravity used by the force models are those of the section 'environmental constants' in SI units, and a negative value is refused.", "quantifier": "all input files and constants", "why_tests_cant": "all values and units of three quantities in all files", "anchors": ["code/core/src/EnvironmentAndFrames.cpp: EnvironmentAndFrames", "code/core/src/SimulatorBuilder.cpp: get_environment", "code/yaml_parser/src/SimulatorYamlParser.cpp: parse"]}
{"id": "C182", "title": "The wave field goes with the states written", "statement": "At each instant the wave elevation written in the outputs is, at each point of the mesh, the elevation of the sea where the frame of the mesh (NED, a body, or NED at a body) puts this point when the bodies are where the states written at the same instant say; the frames are rigid; an unknown frame is an error; without wave model or mesh nothing is written.", "quantifier": "all wave models (Airy), meshes, frames, numbers of bodies, states and dates", "why_tests_cant": "all positions and attitudes of the bodies at all instants", "anchors": ["code/core/src/EnvironmentAndFrames.cpp: feed", "code/core/src/Sim.cpp: output", "code/core/src/Body.cpp: update_kinematics", "code/core/src/SurfaceElevationInterface.cpp: get_waves_on_mesh_as_a_grid"]}
{"id": "C183", "title": "Trajectories converge to the solution of the equations of motion", "statement": "When the time step tends to zero, the states computed, and the normalised states written, by the solvers that run (Euler, Runge-Kutta 4) tend to the solution of the equations of motion that starts from the same states, uniformly over the simulation, with an error of at most a constant times the step; the simulation does not fail.", "quantifier": "all bodies without forced states, all efforts that depend on the states and the date and are Lipschitz on bounded sets (gravity, damping, constant efforts and their sums among them), all durations, all solutions, all sufficiently small steps", "why_tests_cant": "a limit over all steps, for all forces and initial states", "anchors": ["code/core/src/Sim.cpp: dx_dt", "code/core/src/Body.cpp: calculate_state_derivatives", "code/core/inc/solver.hpp: quicksolve"]}
{"id": "C184", "title": "Small errors have small effects", "statement": "Errors in the initial states (at most d) and in the efforts (at most eps, possibly depending on the past of the simulation) change the computed trajectories by at most a constant times (step + eps + d), the same constant over the whole simulation and for all such errors; so two simulations of the same case with close initial states, efforts, steps or with different solvers end close to each other; and the equations of motion have only one solution from given initial states.", "quantifier": "all bodies without forced states, all regular efforts, all perturbations of the initial states and of the efforts, all durations, all sufficiently small steps", "why_tests_cant": "a bound that must hold for all perturbations, step sizes and numbers of steps", "anchors": ["code/core/src/Sim.cpp: dx_dt", "code/core/src/Body.cpp: calculate_state_derivatives", "code/core/inc/solver.hpp: quicksolve"]}
{"id": "C185", "title": "Energy of the simulated bodies", "statement": "Along the solutions of the equations of motion the mechanical energy of a body (kinetic energy with its total inertia matrix, plus potential energy of its weight) changes by the work of the efforts other than the weight: it is conserved when they do not work, it never grows when they only take energy (damping models with a suitable matrix). The trajectories computed by Euler and Runge-Kutta 4 do the same up to a constant times the step.", "quantifier": "all bodies with a symmetric inertia matrix and its inverse, all regular efforts, all durations, all sufficiently small steps", "why_tests_cant": "an invariant of all trajectories, for all inertias, efforts and steps", "anchors": ["code/core/src/Body.cpp: calculate_state_derivatives", "code/force_models/src/GravityForceModel.cpp: operator()", "code/force_models/src/DampingForceModel.cpp", "code/core/inc/solver.hpp: quicksolve"]}
{"id": "C186", "title": "Test data made from YAML files", "statement": "The C++ function printed by yml2test returns the text of the file (with LF ends of line), and compiles, for every file.", "quantifier": "all file names that give an identifier, all contents, both ends of line", "why_tests_cant": "all contents, including those with quotation marks, backslashes and empty lines", "anchors": ["code/executables/src/yml2test.cpp: main", "code/executables/src/yml2test.cpp: remove_carriage_return"]}
{"id": "C187", "title": "Port and starboard", "statement": "Nothing prefers a side: the simulation of a ship seen in a mirror (initial states, inertia and efforts mirrored, propellers turning the other way, rudder orders opposite) gives exactly the mirrored trajectory; a symmetrical ship that starts without drift, heel and yaw goes straight for ever.", "quantifier": "all solvers, numbers of steps, time steps, numbers of bodies, histories, mirrored initial states; efforts that are mirrored (weight, dampings, propellers with rudders, constant efforts, controllers and linear hydrostatics are)", "why_tests_cant": "the whole trajectory, for any efforts and any number of steps", "anchors": ["code/core/src/Body.cpp: Body::calculate_state_derivatives", "code/core/src/Sim.cpp: Sim::dx_dt", "code/core/inc/solver.hpp", "code/force_models/src/RudderForceModel.cpp: RudderForceModel::get_force", "code/force_models/src/AbstractWageningen.cpp: AbstractWageningen::get_force", "code/force_models/src/LinearHydrostaticForceModel.cpp: LinearHydrostaticForceModel::operator()"]}
{"id": "C188", "title": "Meshes as C++ code", "statement": "What convert_stl_files_to_code prints for a mesh compiles, and the string it defines decodes to the same facets (coordinates rounded to single precision), for every mesh.", "quantifier": "all meshes of less than 2^32 facets of at least three vertices", "why_tests_cant": "all meshes", "anchors": ["code/executables/src/convert_stl_files_to_code.cpp: main", "code/executables/src/convert_stl_files_to_code.cpp: write_binary_cpp", "code/binary_stl_data/src/generate_test_ship.cpp", "code/base91x/base91.hpp: base<91>::encode"]}
{"id": "C189", "title": "Hulls have no favourite side", "statement": "The water pushes a hull seen in a mirror with the mirrored force and moments: hydrostatic efforts, volume and centre of buoyancy of the mirrored facets are the mirrored ones, for every position, and the water exerts no side force, no heeling moment and no turning moment on the triangles of a symmetrical hull which is upright with no side velocity and whose centre of gravity is in the plane of symmetry.", "quantifier": "all hulls made of triangles, positions, densities, centres of gravity", "why_tests_cant": "all hulls and positions", "anchors": ["code/core/src/SurfaceForceModel.cpp: SurfaceForceModel::operator()", "code/force_models/src/FastHydrostaticForceModel.cpp: FastHydrostaticForceModel::get_dF", "code/force_models/src/HydrostaticForceModel.cpp: HydrostaticForceModel::operator()", "code/mesh/src/mesh_manipulations.cpp: unit_normal, area, centre_of_gravity", "code/mesh/src/MeshIntersector.cpp: MeshIntersector::center_of_mass"]}
