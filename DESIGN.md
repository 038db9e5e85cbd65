# Design: a Rocq model of sirehna/xdyn

## Method

* The sources in `/repo/code` are read as text and transcribed function by function into total, computable
  Gallina definitions (`theories/*_Model.v`). Every definition cites the file and lines it models and says
  where it simplifies.
* Observable outcomes are explicit: a C++ function that may throw or hit undefined behaviour returns
  `outcome A := Ok a | Throw e | UB`. UB is never identified with a value.
* Specifications (`theories/*_Spec.v`) are written without the model's helpers: plain arithmetic on lists,
  real analysis, relations on inputs/outputs.
* Theorems that count are in `theories/*_Props.v`; each is followed by `Print Assumptions` and, beside it, by an
  `Example` exhibiting a concrete non-trivial case satisfying its hypotheses.
* Where the code violates the property as a user would state it, the violation is a theorem with suffix
  `_refuted` (a concrete witness run through the model), and the strongest guarded version that does hold is proved
  with suffix `_partial` (or without suffix when it is a complete, separate claim).

## Numbers

`double` is modelled in one of four ways, said in each model file:
1. *Order-generic*: an arbitrary carrier with arbitrary arithmetic and a decidable strict total order (this covers
   every rounding mode; NaN excluded). Used for search / sorting / windowing properties.
2. *Exact reals* (`Coq.Reals.R`): value properties (interpolation, energy, geometry). Rounding, overflow and NaN are
   not covered; said in each claim's note.
3. *IEEE 754 doubles* (Flocq's `binary_float 53 1024`, one NaN, round to nearest even): where division by zero or NaN
   is the point (propellers).
4. *Bit patterns* (`Z`/`N` words): codecs and file formats; doubles/floats are opaque 32/64-bit words.
Machine integers are modelled with their wrap-around where it matters.

## Trusted base

* Coq 8.16.1's kernel (and `coqc`, the standard library as compiled).
* `Print Assumptions` output of each theorem: either "Closed under the global context" or, for theorems over `R`, the
  standard library's axioms of the reals (`ClassicalDedekindReals.sig_forall_dec`,
  `ClassicalDedekindReals.sig_not_dec`, `FunctionalExtensionality.functional_extensionality_dep`) and, where
  `Coquelicot`/classical reasoning is used, `Classical_Prop.classic`; for C104-C105 also
  `ClassicalEpsilon.constructive_indefinite_description` (choice structure of R for mathcomp). No axiom is added.
* The transcription from C++ (by hand, by reading).

## What is not modelled

The external library SSC (kinematics, interpolation, solver steppers, data source, CSV reader), Eigen, boost, yaml-cpp,
HDF5, gRPC and websocket I/O. Where xdyn calls them the model takes a parameter (an arbitrary function) and the theorem
is quantified over it. `UnsafeWrench::operator+=` (ssc) is taken to add forces and torques without looking at the points
of application; `Kinematics::get` gives an arbitrary rotation and translation; `std::pow` is an arbitrary function such
that pow(NaN,n) is NaN for n>0.

## Properties: what is modelled and how it is proved

See the table below; ids refer to `properties.jsonl`, results to `MANIFEST.json`.

| id | model | proof |
|----|-------|-------|
| C01-C03 | base91 encoder/decoder as state machines over lists of bytes (`Base91_Model`) | invariant relating decoder state to encoder state, induction on the buffer |
| C04 | base64 encoder/decoder on bytes | induction by blocks of 3 |
| C05-C06 | byte-level STL writer and stream reader (with stream good/eof state) | induction on facets; truncation refuted by witness, positive for complete files |
| C07-C13 | `History` class; order-generic for C07-C09, C11, reals for C10, C12, C13 | invariants over sequences of `record` calls; binary search by well-founded measure; integral as Riemann sum of the piecewise-linear signal |
| C14-C17 | `BlockedDOF`, tables, interpolators as parameters | list/map reasoning; CSV refuted by witness |
| C18-C23 | state vector, quaternion normalisation, Body derivatives, Sim loops | index arithmetic; ring/field over R |
| C24-C25 | `quicksolve`/`simulate` with scheduler and stepper as parameters | induction on steps |
| C26-C29 | `Observer` base class, CSV/TSV, Dict observers emitting token streams | induction on requested list / number of observations; JSON grammar as an independent recogniser |
| C30-C32 | server inputs, address parser, format selection on strings | list/string reasoning |
| C33-C40 | spectra discretisation, flattening, filter, Airy, stretching, output grid | induction on lists, real analysis |
| C41-C45 | mesh builder, intersector, facet geometry | invariants of the builder fold; vector algebra |
| C46-C48 | HDB parser/interpolators | ring on 6x6 matrices; list reasoning; refutation by witness for unsorted files |
| C49-C51 | maneuvering grammar, compiler, bounds | recursive-descent PEG interpreter; structural induction |
| C52-C58 | force models | linear algebra / real inequalities |
| C59-C60 | GZ tool | bisection invariant and termination; refutation by witness |
| C61 | quadrature grids | induction |
| C62 | STL format detection | byte-level model of the detection |
| C63 | in-memory observers | induction on observations |
| C64-C67 | gravity, controllers, linear hydrostatics, sum of forces over R (`Force_Model`), vocabulary of rigid-body mechanics in `Geometry`, `Force_Spec` | vector algebra, derivatives (Coquelicot), explicit diverging solutions |
| C68-C71 | rudder model over R | trigonometry, atan2, real inequalities |
| C72 | propellers over R | real inequalities |
| C45, C58, C73-C75 | facet geometry, orientation, hydrostatic forces and centre of pressure over R (`Hull_Model`); polygons, closed surfaces, volumes and pressure integrals (Riemann integrals over triangles) in `Hull_Spec` | telescoping of antisymmetric edge terms over closed surfaces; polynomial integrals; refutations by witness |
| C61, C76-C77 | integration grids, retardation functions, radiation force over R (`Radiation_Model`); integration formulas as decision trees asking for values (covers adaptive ones); splines and root finder are parameters | induction on the formula, on the loops; `Rpower` monotonicity; refutations by witness |
| C59-C60, C78-C80 | the GZ tool over R (`Gz_Model`); the forces on the hull are a parameter | bisection invariant and explicit number of steps, intermediate value theorem, exact Newton step, refutations by witness |
| C46-C48, C81-C82 | tree of the HDB file to matrices and tables, mirror of the RAO, diffraction force over R (`Hdb_Model`); the text grammar of the file and the ssc interpolator are not modelled (parameters) | loop invariants, reduction modulo 2 pi, sums of cosines, refutations by witness |
| C49-C51 | grammar (as a parsing expression grammar over characters), syntax tree, nodes, values, bounds and Tmax of the maneuvering expressions (`Man_Model`); textbook left-recursive grammar in `Man_Spec`. Not modelled: signed "inf"/"nan" literals, rounding, the DataSource (values of the variables are a parameter), the tree left by a failed parse (taken as empty) | chains of operands against greedy loops, induction on the depth of parentheses; soundness of bounds by induction; refutations by computation |
| C41-C44 | mesh builder, tables of nodes, edges and facets, cut by the free surface over R (`Mesh_Model`); tables and clipped polygons (Sutherland-Hodgman) in `Mesh_Spec`. std::map is an association list searched with the comparator. Not modelled: closing facets, memory beyond the arrays' indices | invariants of the loops over points, edges and facets; the 27 sign patterns of a triangle; barycentric coordinates for areas; refutations by computation |
| C83-C89 | the wave model of C33-C40 (`Wave_Model`) again: velocities, pressures, densities, spreadings, RAO; the flow equations are in `Wave_Flow_Spec`, with the derivatives of the standard library. Boost's root finder is a parameter with two hypotheses | derivatives of one component, closure of the equations under sums; intermediate value theorem for the dispersion relation; antiderivative of the spectrum; refutations by witness |
| C90-C93 | gRPC co-simulation and model exchange services (`Grpc_Model`): sizes, conversion of requests and answers, Euler rates. Parameters: the simulator, the conversions between Euler angles and quaternions. Not modelled: transport, commands, texts | loops over the dates as lists, histories recorded at equal dates, derivatives of rotation matrices; refutations for all well formed requests |
| C94-C97 | distant force and wave models (`Grpc_Client_Model`): status codes, requests, answers. The servers are arbitrary functions. Not modelled: transport, texts of errors, YAML sent | inversion of the sequence of checks; invariants of the loops; refutations for all servers |
| C98-C101 | closing facets of the cut hull (`Closing_Model`): graph of the edges on the free surface, contour search with its angles over R. boost::connected_components is modelled by relabelling (numbering by first vertex); std::set and std::map as sorted or association lists | label invariant of the components; a closed line as a ring: each step has exactly one candidate; orientation by convexity; refutations by explicit waterlines |
| C102-C103 | the mesh and its cut (C42-C47), the contours of C98-C101 and the hydrostatics of C58 composed: `update_intersection`, `update_closing`, `center_of_mass_immersed`, `hydrostatic`. The wet part of a polygon, its waterline and the enclosed volume are defined without the model (`Floating_Spec`, `Hull_Spec`) | the half edges of a closed mesh cancel in pairs, so the entry and exit points of the waterline chain up; permutation of edges; divergence theorem on closed triangle lists (C58); the buoy of `Floating_Examples` meets all the hypotheses |
| C104-C105 | `Inertia_Model`: the checks of BodyBuilder on the inertia matrices; Eigen's determinant and inverse at their mathematical meaning (`Matrix_Model`, Laplace expansion and cofactors) | Sylvester's criterion by induction on the size with Schur complements; determinants through mathcomp's matrices over R (this adds `ClassicalEpsilon.constructive_indefinite_description` of the standard library to the axioms of these theorems) |
| C106 | the rudder and propeller of C56, C68-C72 | homogeneity of each step |
| C107-C111 | construction of a simulation (`Builder_Model`): parsers tried in turn, forces per body, history lengths, initial states, rotation conventions, maps by name. Parameters: the constructors of the models, the wave models, the reading of meshes and blocked states. Not modelled: yaml-cpp, texts of errors | induction on the lists of parsers, models and bodies; the quaternion of a rotation matrix in the four branches of Eigen; refutations by a file with two bodies of the same name |
| C112-C114 | the GM model and the state it shares with the other models (`Gm_Model`): frames and intersector are threaded through the sum of forces, as in the code. Parameters: the intersection with the waves, the Euler angles found by ssc, the hydrostatic model | a roll step multiplies the attitude by a rotation about x; induction on the list of models; mean value theorem; refutations by a drifting ship |
| C115-C116 | commands and reports of controlled forces (`Command_Model`): names, constants and tables, priority of own commands; call of feed by Sim::output. DataSource and interpolation are parameters | injectivity of the names, induction on the lists; vector algebra |
| C117-C119 | messages of the websocket servers (`Wire_Model`): decoding of requests, encoding of answers, catch clauses of report_xdyn_exceptions_to_user, error answers. Parameters: printing and reading of doubles, rapidjson (replaced by the JSON reader of the specification) | a text and the value it is read as, compositionally for numbers, members, arrays (`reads`); exact characterisation of the requests accepted |
| C120-C124 | main functions, checks of the command lines, solvers, outputs (`Main_Model`). Parameters: result of boost::program_options, the simulation and servers (return or throw), keys of the YAML entries (absent, wrong, value) | case analysis over all command lines and exceptions; induction on the entries |
| C125 | BodyBuilder::change_mesh_ref_frame (`Frame_Model`) | two runs of the mesh builder side by side (`lift`), geometry invariant by the rigid motion |
| C126 | update_intersection of `Mesh_Model` from two states that differ by the unused columns only (`Memory_Proofs.twin`) | relational proof over the loops of the cut |
| C127-C129 | update of the intersection with the waves, FroudeKrylovForceModel, SurfaceForceModel (`Froude_Model`) | closed form of the elevations and pressures (`Froude_Spec`), positive area of the clipped triangles, same cut from all histories |
| C130 | XdynForME::calculate_dx_dt with several bodies (`Multi_Model`, on top of `Server_Model` and `Sim_Model`) | length of the vector of a request, evaluation of the first body, first access of the second |
| C131, C133 | Hdf5Observer, Hdf5WaveObserver, H5_Tools (`Hdf5_Model`), on top of the Observer loop of `Observer_Model`. The HDF5 library and EigenHDF5 are taken at their documented meaning (tree of links, extending keeps the values, hyperslabs); types, chunks and attributes are not modelled | invariant over the instants: dimensions and cells of each dataset, frame of the rest of the tree |
| C132 | names and addresses of the outputs (`Hdf5_Names_Model`) | a clash of addresses throws at the first instant; prefix-freeness of the plain addresses; witnesses of clashes |
| C134 | Hdf5WaveSpectrumObserver (`Hdf5_Model`) and the elevation of `Froude_Spec` | list of writes with pairwise apart addresses; formula evaluated by the specification |
| C135 | stl_io_hdf5.cpp (`Hdf5_Mesh_Model`) | round trip through a reader of the specification; induction on the fans |
| C136 | input_data_serialize (`Stored_Model`) | induction on the words; the reader of the specification follows the options declared in parse_XdynCommandLineArguments.cpp |
| C137-C143 | SimulatorYamlParser, external_data_structures_parsers, parse_commands, seed (`Yaml_Model`): yaml-cpp nodes are a tree with Null, Scalar, Seq, Map; FindValue returns the first entry; numbers and units are parameters | relational specification (`Yaml_Spec`) of what a document says, without order of evaluation; equivalence by the bind laws; rotation conventions by case analysis through the angle2matrix of `Builder_Model` |
| C144, C145 | environment_parsers.cpp (`Yaml_Model`): the errors swallowed by parse_output are modelled as a sequence of assignments stopped by the first error | as above |
| C146, C147 | parser_extensions/src/builders.cpp (`Sea_Model`) on top of `Wave_Model` | rewriting of the sea built from the section described by the specification |
| C148 | Body::update, Sim::operator(), quicksolve with an arbitrary stepper (`Nan_Model`) | induction on the steps |
| C149, C150 | ManeuveringForceModel, maneuvering_DataSource_builder (`Man_System_Model`) over the compiler of `Man_Model`; ssc DataSource is modelled as evaluation by need, bounded by the number of names | monotony in the depth and counting of the names known at each depth; equivalence with the inductive `computable`; uniqueness of the solution by induction on `computable` |
| C151-C156 | functions parse and constructors of force_models/src (`Section_Model`) on top of `Yaml_Model`, forces of `Force_Model`; interpolators are parameters | relational specification (`Section_Spec`) of what a section says; equivalence by the bind laws; the laws of force are then rewritten with the values of the section |
| C157-C159 | stl_reader.cpp:10-147 and 184-196 (`Ascii_Model`: the buffer of 256 characters with its stale bytes, getline, sscanf of words, the word kept from one line to the next, the locale) | relational specification of the lines (`Ascii_Spec`); strong induction on the lines for the equivalence; simulation of streams for long lines; invariant on the last word for truncations |
| C160-C163 | gz.cpp, convert_quaternion_to_euler.cpp, convert_stl_files_to_code.cpp (`Tool_Model`), on top of the models of the curve, of the reports of errors, of base 91 and of binary STL | unfolding, induction on the angles, scaling of the list of angles from degrees to radians; composition of the two round trips |
| C164, C165 | stl_writer.cpp (`Writer_Model`) and the reader of `Ascii_Model` | the written lines are in the relation of `Ascii_Spec`, by induction on the facets; a line that is not the expected one makes the reader throw |
| C166 | Sim::operator(), Sim::output, ForceModel::update and feed with the Euler and Runge-Kutta 4 steppers (`Report_Model`), loop of `Sim_Model` | composition with the theorem on consecutive observations of the loop; bound on the distance between the prediction and the state |
| C167 | Body::update, Sim::dx_dt, BlockedDOF, loops of the library and of the main program (`Forced_Model`) | specification of the loop on the states of `Blocked_Proofs`, induction on the steps |
| C168 | make_sim_for_GZ.cpp and the constructor of ResultantForceComputer (`Righting_Model`) over the builder of `Builder_Model` | inversion of the construction of the simulation; toy parsers for the witnesses |
| C169 | ResultantForceComputer::resultant (`Righting_Model`), `Hull_Model` and `Gz_Model` | theorem of Archimedes of `Hull_Force_Props` at the position made from the angles; composition with the bisection of C59 |
| C170 | closed_volume of `Closing_Model`, check of GZCurve.cpp | sums of tetrahedra for planar facets; a computed wedge for the refutation |
| C171 | choice of the solver, stages of the methods, update of the histories (`Solver_Model`) over `History_Model` | invariant: nothing recorded after the current date; the stages of the first two methods go forward; the sixth stage of the third goes back |
| C172 | update_body_states (`Solver_Model`) and the interpolation of `History_Model` | the last recorded pair is the value at the current date, under the spacing of the dates |
| C173 | propeller_and_rudder, controlled_wrench (`Force_Model`) | the moment computed differs from the expected one by an explicit term; a propeller with its z axis upwards for the refutation |
| C174 | what stays in a server between two requests, both requests (`Request_Model`) over `Solver_Model`, `Server_Model`, `Command_Model` | every part of the kept state that the answer reads is overwritten by the request; induction on the earlier requests; a steered ship for the refutations |
| C175 | the derivative of Sim_Model, with the matrix of the quaternion as it is, inside the steppers of Solver_Model (`Drift_Model`) | quaternion part of every evaluation by induction on the bodies; product of the stretchings by induction on the steps; algebra of non-unit quaternions; a free turning ship for the refutation (all the hypotheses met) |
| C176 | sum of gravity, fast hydrostatic on the facets immersed in calm water, Coriolis and other models, in the run of Drift_Model (`Calm_Model`) | simulation relation between two runs (same dates, depths and velocities in the histories; states moved or turned), preserved by every evaluation, stage and step of every method; free ship and 180-degree turn for the refutations |
| C177 | constructors that test the wave model, update of the hull and evaluations with an absent wave model, at any number of instants (`Dry_Model`) | induction on the models and on the evaluations; the intersector stays as built; computation for the refutations |
| C178 | efforts and speed of RudderForceModel with the sea as an argument (`Dry_Model`) | a swell moving at 9.81 m/s at the rudder against calm water; read of an unset variable |
| C179 | requests of `Request_Model` chained by a client that sends the last answer back | the trajectory does not depend on the histories when the forces have no memory (induction on stages and steps), steps put end to end; a turning ship computed for the refutation |
| C180 | `Drift_Model` (derivatives of the bodies inside the steppers) with the gravity of `Force_Model` | the three stages of Runge-Kutta computed symbolically, induction on the steps; all stages null at rest for any tableau |
| C181 | constructor of the environment and assignment of the constants read by `Yaml_Model` (`Env_Model`) | reading of the file (C137) composed with the assignment; three files with a negative constant for the refutation |
| C182 | writing of the wave field after the states of the same instant, frames of the bodies (`Env_Model`) | list of the frames added, points of the mesh (C40) moved by any rigid transform; normalisation makes the frames rigid |
| C183 | `Drift_Model` (derivatives of the bodies inside the steppers of `Solver_Model`) | bound of the error of a step of any consistent table (Lipschitz stages, mean value theorem), discrete Gronwall with exponentials, uniform constants from compactness of the trajectory; closure of regular functions under sums, products and absolute values |
| C184 | `Drift_Model` (as C183) | the step bound of C183 with efforts known up to eps and states up to d, constants that do not depend on them; uniqueness by comparing both solutions with the same computed trajectory |
| C185 | `Drift_Model` with gravity and damping of `Force_Model` (`Energy_Props`) | derivative of the quadratic form of the inertia along a solution, mean value theorem; the energy is a regular function of the states, so the bound of C183 carries over |
| C186 | yml2test.cpp (`Embed_Model`) | small lexer of C++ as specification, induction on the lines; the exceptions are refuted |
| C187 | `Drift_Model` with two families of bodies and efforts; weight, dampings, propeller, rudder, controllers, linear hydrostatics of `Force_Model` (`Mirror_Props`) | the derivative, the linear combinations, the stages and the steps commute with the mirror; induction on the stages and on the steps |
| C188 | convert_stl_files_to_code.cpp and generate_test_ship.cpp over `Stl_Model` and `Base91_Model` (`Code_Model`) | round trips of C01 and C05 composed, lexer of C186; a double quote leaves a second literal; refuted by a triangle |
| C189 | pressure efforts, volume and centre of buoyancy of built facets (`Hull_Model`), seen in a mirror (specification in `Mirror_Props`, `Mirror_Hull_Props`) | the normal, area and centroid of a reversed mirrored triangle; sums of elementary efforts, which are commutative; a symmetrical hull equals its image up to the order |
