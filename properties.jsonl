{"id": "C01", "title": "Saved numbers survive the file encoding", "statement": "Every finite real number that is not subnormal and is written to a state file is read back with exactly the same value, and the 64-bit word written is the IEEE-754 binary64 pattern of that number, so the file can be read on any machine.", "quantifier": "every sign, every 53-bit normalised mantissa and every exponent of a normal double, plus zero", "why_tests_cant": "there are about 2^64 doubles; a test samples a handful and never meets the boundary mantissas and exponents", "anchors": ["source/IO.cpp: pack754, unpack754"]}
{"id": "C02", "title": "Saving terminates on every number", "statement": "Saving the state terminates and preserves the value whatever real numbers the state holds, including infinities, NaN and subnormals produced by a diverging simulation.", "quantifier": "every double, special values included", "why_tests_cant": "a blown-up simulation is exactly the state nobody constructs in a test; non-termination cannot be observed by a passing test", "anchors": ["source/IO.cpp: pack754, unpack754"]}
{"id": "C03", "title": "Typed serialisation round-trips and consumes exactly its own words", "statement": "For every value of every type that can be put in a state file (integers, reals, 3- and 6-vectors, 3x3 and 6x6 matrices, quaternions, positions with orientation, and lists and lists of lists of them) reading back what was written yields the value and leaves the reading position exactly after it, whatever follows in the file.", "quantifier": "every type, every value, every list length and nesting, every trailing data", "why_tests_cant": "list lengths, nesting and what follows in the buffer are unbounded", "anchors": ["source/IO.cpp: IO::Serialize, IO::Deserialize", "source/IO.hpp: Serialize/Deserialize templates"]}
{"id": "C04", "title": "A saved file loads back on the same build", "statement": "MoorDyn_Save followed by MoorDyn_Load on a system with the same layout succeeds and hands the object exactly the words it serialised, on little-endian and on big-endian machines and across them.", "quantifier": "every word sequence, both byte orders for writer and reader", "why_tests_cant": "a test runs on one byte order and with a few system sizes", "anchors": ["source/IO.cpp: IO::Save, IO::Load, IO::is_big_endian, IO::swap_endian"]}
{"id": "C05", "title": "Malformed state files are rejected", "statement": "MoorDyn_Load reports an error, and never succeeds, for every file that is too short, does not start with the magic word, was written by an older version than the oldest supported one, or whose length disagrees with its header.", "quantifier": "every byte sequence", "why_tests_cant": "the space of corrupt files is unbounded", "anchors": ["source/IO.cpp: IO::Load"]}
{"id": "C06", "title": "Files written by any build are loadable by that same build", "statement": "A build of MoorDyn accepts the version stamp that it writes itself.", "quantifier": "every version pair the build may carry", "why_tests_cant": "tests only run with the version of the day", "anchors": ["source/IO.cpp: IO::IO, IO::Save, IO::Load"]}
{"id": "C07", "title": "A rejected load leaves the simulation unchanged", "statement": "When MoorDyn_Load fails the state of the system is the one it had before the call, and no memory outside the file contents is read.", "quantifier": "every file and every system", "why_tests_cant": "the failure depends on arbitrary disagreement between file and system layout", "anchors": ["source/IO.cpp: IO::Load", "source/MoorDyn2.cpp: MoorDyn::Deserialize"]}
{"id": "C08", "title": "Every object restores the state it saved", "statement": "For each point, rod, body, line and for the integrator, restoring the saved words reproduces every saved field and consumes exactly the words that were written; the whole system does so for any number of objects.", "quantifier": "every number of objects, nodes and state slots and every field value", "why_tests_cant": "the composite layout grows with every object; tests use one or two systems", "anchors": ["source/Point.cpp: Point::Serialize/Deserialize", "source/Body.cpp: Body::Serialize/Deserialize", "source/Line.cpp: Line::Serialize/Deserialize", "source/Rod.cpp: Rod::Serialize/Deserialize", "source/Time.hpp: TimeSchemeBase::Serialize/Deserialize", "source/MoorDyn2.cpp: MoorDyn::Serialize/Deserialize"]}
{"id": "C09", "title": "Load resumes the simulation that was saved", "statement": "After MoorDyn_Save, any further activity, and MoorDyn_Load, everything that influences later results is as it was when saving: in particular the unstretched length of each line, the pending failures and the accelerations that enter the reported coupling forces.", "quantifier": "every history between save and load", "why_tests_cant": "requires comparing hidden state over arbitrary histories", "anchors": ["source/Line.cpp: Line::Serialize", "source/Body.cpp: Body::Serialize", "source/MoorDyn2.cpp: MoorDyn::Serialize"]}
{"id": "C10", "title": "Errors keep their code through the C API", "statement": "Each error raised inside the library is reported by the C function with the documented error code of its kind, and converting a code to an exception and back is the identity; nothing escapes as a C++ exception.", "quantifier": "every documented code and every exception kind", "why_tests_cant": "tests provoke only a few error kinds", "anchors": ["source/Misc.hpp: MOORDYN_THROW, MOORDYN_CATCHER", "source/MoorDynAPI.h"]}
{"id": "C11", "title": "Splitting a line of input yields its words", "statement": "Splitting a text at a separator yields exactly its maximal separator-free non-empty pieces in order: no piece contains the separator or is empty, joining them with any number of separators and splitting again gives the same pieces.", "quantifier": "every string and separator", "why_tests_cant": "strings are unbounded", "anchors": ["source/Misc.cpp: str::split"]}
{"id": "C12", "title": "Trailing blanks are removed and nothing else", "statement": "Trimming a line removes exactly the longest suffix of white space: the result is a prefix, does not end in white space and is the same for the text with any white space appended (so CRLF files read as LF files).", "quantifier": "every string", "why_tests_cant": "strings are unbounded", "anchors": ["source/Misc.cpp: str::rtrim, fileIO::fileToLines"]}
{"id": "C13", "title": "Output channel names decompose into letters and numbers", "statement": "An output channel name made of letters, digits, letters, digits, letters decomposes into exactly those groups, upper-cased, and concatenating the groups gives back the upper-cased name; a name without a number is reported as invalid.", "quantifier": "every channel name", "why_tests_cant": "names are unbounded strings", "anchors": ["source/Misc.cpp: str::decomposeString"]}
{"id": "C14", "title": "Tabulated data is interpolated linearly and never extrapolated", "statement": "For strictly increasing abscissae the interpolation index and factor designate the segment containing the query, the factor lies in [0,1], the value at a tabulated abscissa is the tabulated value, the value is always between the two bracketing ordinates, and outside the table the nearest end value is returned. The result does not depend on the starting hint as long as the hint does not exceed the segment.", "quantifier": "every strictly increasing table, every query, every admissible hint", "why_tests_cant": "tables and queries are unbounded", "anchors": ["source/Util/Interp.hpp: interp_factor, lerp, interp, interp2"]}
{"id": "C15", "title": "Sea floor depth is bounded by the table", "statement": "The depth reported at any (x, y) lies between the smallest and the largest depth given in the bathymetry file, equals the given depth at grid points and is constant beyond the grid along each axis.", "quantifier": "every rectangular grid, every position", "why_tests_cant": "grids and positions are unbounded", "anchors": ["source/Seafloor.cpp: Seafloor::getDepthAt, Seafloor::setup"]}
{"id": "C16", "title": "The average depth is the mean of the grid depths", "statement": "The average depth of a bathymetry is the mean of the depths of the grid.", "quantifier": "every bathymetry file accepted", "why_tests_cant": "files with repeated or missing entries are accepted as well; tests only use complete ones", "anchors": ["source/Seafloor.cpp: Seafloor::setup"]}
{"id": "C17", "title": "The time step obtained from a CFL factor is stable for every object", "statement": "The time step derived from a CFL factor does not exceed the one of any line, point, rod or body, the CFL factor reported for a time step is the largest among the objects, converting a CFL factor to a time step and back gives the factor for an object with finite period, and MoorDyn_Init picks the smallest step.", "quantifier": "every set of objects and CFL factor", "why_tests_cant": "the set of objects is unbounded", "anchors": ["source/Util/CFL.hpp: CFL, NatFreqCFL, SuperCFL", "source/MoorDyn2.cpp: MoorDyn::Init", "source/MoorDyn2.hpp: SetDt, SetCFL"]}
{"id": "C18", "title": "The integrator keeps one state slot per object", "statement": "After any sequence of additions and removals of lines, points, rods and bodies, the integrator holds exactly one state entry per registered object, at the same position as the object; adding twice or removing an unknown object is reported as invalid value and changes nothing.", "quantifier": "every sequence of add and remove operations", "why_tests_cant": "histories are unbounded", "anchors": ["source/Time.hpp: TimeScheme::Add*/Remove*, TimeSchemeBase::Add*/Remove*"]}
{"id": "C19", "title": "One integrator step advances time by the step", "statement": "A call to Step(dt) of any available time scheme advances the simulated time by exactly dt, for any initial time, any number of inner iterations and any behaviour of the objects.", "quantifier": "every scheme, dt, time, number of inner iterations", "why_tests_cant": "tests check a few schemes and steps with tolerance", "anchors": ["source/Time.cpp: *Scheme::Step", "source/Time.hpp: TimeScheme::Step"]}
{"id": "C20", "title": "Explicit schemes reach their order on polynomial motion", "statement": "With a derivative that depends only on time, Euler is exact for constant, Heun and RK2 for linear and RK4 for cubic derivatives (documented orders 1, 2, 2 and 4), for every state, step and coefficients.", "quantifier": "every polynomial of the stated degree, every dt and start time", "why_tests_cant": "exactness over a polynomial family cannot be sampled", "anchors": ["source/Time.cpp: EulerScheme::Step, HeunScheme::Step, RK2Scheme::Step, RK4Scheme::Step"]}
{"id": "C21", "title": "Adams-Bashforth schemes use the previous derivatives", "statement": "At every step the k-step Adams-Bashforth scheme combines the last k derivatives with the Adams-Bashforth coefficients of the documented order.", "quantifier": "every history of derivatives", "why_tests_cant": "needs quantification over histories", "anchors": ["source/Time.hpp: ABScheme::shift", "source/Time.cpp: ABScheme::Step"]}
{"id": "C22", "title": "State arithmetic is componentwise", "statement": "Sums, differences and scalings of system states and their derivatives act componentwise on every object, so a minus a is zero and (a+b)-b = a, and combining states with different numbers of objects is reported as an error.", "quantifier": "every state and number of objects", "why_tests_cant": "unbounded states", "anchors": ["source/State.cpp: StateVar/StateVarDeriv operators, MoorDynState, DMoorDynStateDt"]}
{"id": "C23", "title": "Requested time scheme is the one created", "statement": "Every documented scheme name, in any capitalisation, creates the scheme it names with the number of inner iterations given by its suffix, and any other name is rejected with an invalid value error.", "quantifier": "every name and suffix", "why_tests_cant": "the number suffix is unbounded", "anchors": ["source/Time.cpp: create_time_scheme"]}
{"id": "C24", "title": "A coupling step is cut into substeps that add up exactly", "statement": "MoorDyn_Step(dt) with dt>0 integrates with substeps that are positive, at most the model time step, and add up to exactly dt; only the last one can be shorter; the number of substeps is ceil(dt/dtM). With dt<=0 nothing is integrated.", "quantifier": "every dt and model time step dtM>0", "why_tests_cant": "the number of substeps is unbounded", "anchors": ["source/MoorDyn2.cpp: MoorDyn::Step"]}
{"id": "C25", "title": "A coupling step always terminates in floating point", "statement": "MoorDyn_Step returns for every positive dt and every positive model time step, in double precision arithmetic.", "quantifier": "every pair of positive doubles", "why_tests_cant": "non-termination on extreme ratios is not reachable by tests", "anchors": ["source/MoorDyn2.cpp: MoorDyn::Step", "source/MoorDyn2.hpp: SetDt"]}
{"id": "C26", "title": "Coupled objects consume the announced degrees of freedom", "statement": "The number of coupled degrees of freedom reported by MoorDyn_NCoupledDOF is the number of entries of x, xd and f that Init, Step and the force output use, and every entry is used by exactly one object in the documented order bodies, rods, points.", "quantifier": "every combination of coupled objects", "why_tests_cant": "unbounded combinations", "anchors": ["source/MoorDyn2.hpp: NCoupledDOF, GetForces", "source/MoorDyn2.cpp: MoorDyn::Init, MoorDyn::Step"]}
{"id": "C27", "title": "Coupled points land on the prescribed position", "statement": "After MoorDyn_Step(x, xd, dt) each coupled point is at x + xd*t after time t inside the step and at x + xd*dt at its end, for any scheme and substepping.", "quantifier": "every x, xd, dt, substep sequence", "why_tests_cant": "unbounded substep sequences", "anchors": ["source/Point.cpp: Point::updateFairlead", "source/Time.cpp: TimeSchemeBase::Update", "source/Time.hpp: TimeScheme::Next, Step"]}
{"id": "C28", "title": "Line pay-out follows the prescribed rate", "statement": "With a constant pay-out rate the unstretched length after any sequence of coupling steps and substeps is the initial length plus rate times elapsed time, independent of how time was cut into steps; the segments always have equal length and sum to the unstretched length.", "quantifier": "every rate and every sequence of steps and substeps", "why_tests_cant": "unbounded schedules", "anchors": ["source/Line.hpp: setUnstretchedLength, updateUnstretchedLength", "source/Time.hpp: TimeScheme::Next"]}
{"id": "C29", "title": "Lines fail when and only when their failure time has come", "statement": "A line-failure entry is executed at the first coupling step whose time has reached the failure time, not before and only once.", "quantifier": "every failure list and every history of steps", "why_tests_cant": "histories are unbounded", "anchors": ["source/MoorDyn2.cpp: MoorDyn::Step (failure loop), detachLines"]}
{"id": "C30", "title": "Line attachments stay consistent", "statement": "At every moment, each end of each line is attached to exactly one point or rod end, and the point or rod lists that line end exactly once; detaching lines moves exactly the requested ends to one new free point and leaves all others alone.", "quantifier": "every system layout and every sequence of failures", "why_tests_cant": "unbounded histories", "anchors": ["source/Point.cpp: addLine, removeLine", "source/Rod.cpp: addLine, removeLine", "source/MoorDyn2.cpp: detachLines"]}
{"id": "C31", "title": "Output rows are written once per output interval", "statement": "With an output interval dtOut>0, a row is written at a coupling step ending at t exactly when a multiple of dtOut lies in (t-dt, t]; hence every multiple of dtOut is represented by exactly one row over a run, and steps of at least dtOut always write.", "quantifier": "every dtOut, every sequence of positive steps", "why_tests_cant": "unbounded runs", "anchors": ["source/MoorDyn2.cpp: MoorDyn::AllOutput"]}
{"id": "C32", "title": "Moving a mass keeps its kinetic energy", "statement": "Expressing a 3x3 mass matrix, or a 6x6 mass/inertia matrix, at a point displaced by r gives a symmetric matrix with the same kinetic energy for every rigid-body motion, displacements compose additively, and zero displacement changes nothing.", "quantifier": "every symmetric matrix, displacement and velocity", "why_tests_cant": "continuous families of inputs", "anchors": ["source/Misc.cpp: translateMass, translateMass6", "source/Misc.hpp: getH"]}
{"id": "C33", "title": "Rotating a mass keeps its kinetic energy", "statement": "Rotating a symmetric 6x6 mass matrix by an orthogonal matrix gives a symmetric matrix whose kinetic energy for rotated velocities equals the original one, and rotating by the transpose undoes it.", "quantifier": "every symmetric matrix and rotation", "why_tests_cant": "continuous families of inputs", "anchors": ["source/Misc.cpp: rotateMass6", "source/Misc.hpp: rotateMass"]}
{"id": "C34", "title": "Points of a rigid body move rigidly", "statement": "The positions and velocities imposed on the points of a body keep all mutual distances and the relative velocity of two points is perpendicular to the segment joining them.", "quantifier": "every orthogonal orientation, positions and twist", "why_tests_cant": "continuous families of inputs", "anchors": ["source/Misc.cpp: transformKinematics", "source/Body.cpp: setDependentKin"]}
{"id": "C35", "title": "Documented cross product matrix", "statement": "The skew matrix returned for r multiplied by a vector a is the cross product r x a, as documented.", "quantifier": "every r and a", "why_tests_cant": "continuous families of inputs", "anchors": ["source/Misc.hpp: getH"]}
{"id": "C36", "title": "Mass and matrices are handed out completely through the C API", "statement": "The 6x6 matrix returned through the C API holds all 36 entries.", "quantifier": "every matrix", "why_tests_cant": "only a full comparison of all entries shows the loss", "anchors": ["source/Misc.hpp: mat62array, array2mat6", "source/Body.cpp: MoorDyn_GetBodyM", "source/Rod.cpp: MoorDyn_GetRodM"]}
{"id": "C37", "title": "Internal line forces cancel", "statement": "The tension, internal damping and bending forces of a line sum to zero over its nodes, for every configuration, and the node masses sum to the mass of the line; so they never accelerate the centre of mass.", "quantifier": "every number of segments and every configuration", "why_tests_cant": "unbounded number of nodes and configurations", "anchors": ["source/Line.cpp: Line::getStateDeriv"]}
{"id": "C38", "title": "A line never pushes", "statement": "With linear stiffness the elastic tension of each segment is along the segment, zero when the segment is not longer than its unstretched length and EA times strain otherwise.", "quantifier": "every segment geometry and stiffness", "why_tests_cant": "continuous families", "anchors": ["source/Line.cpp: Line::getStateDeriv"]}
{"id": "C39", "title": "Drag dissipates", "statement": "The transverse and tangential drag on a line node, a rod node and a point opposes the relative velocity: its power on the relative velocity is never positive.", "quantifier": "every velocity, direction and non-negative coefficients", "why_tests_cant": "continuous families", "anchors": ["source/Line.cpp: Line::getStateDeriv", "source/Point.cpp: Point::doRHS", "source/Rod.cpp: Rod::doRHS"]}
{"id": "C40", "title": "Sea bed friction is bounded and opposes sliding", "statement": "The friction force never exceeds the saturation limit and has non-positive power; the sea bed only pushes upward, never pulls the line down.", "quantifier": "every velocity, penetration and coefficients", "why_tests_cant": "continuous families", "anchors": ["source/Line.cpp: Line::getStateDeriv (bottom contact)"]}
{"id": "C41", "title": "Submerged fraction of a segment", "statement": "The submerged fraction of a line segment lies in [0,1], is 1 when both ends are below the surface and 0 when none is, is exact for a thin line, is for a thick one the part below the surface of the diagonal from its lowest to its highest corner, varies continuously as the segment moves, and does not depend on the order of the ends.", "quantifier": "every pair of end elevations and diameters", "why_tests_cant": "continuous families, degenerate equalities", "anchors": ["source/Line.cpp: Line::calcSubSeg"]}
{"id": "C42", "title": "Nonlinear curves read from file are used as given", "statement": "A two-column strain/tension (or velocity/damping) file defines the curve that is used: abscissae from the first and ordinates from the second column, and the damping force is odd for a one-sided curve.", "quantifier": "every curve file", "why_tests_cant": "unbounded files", "anchors": ["source/MoorDyn2.hpp: read_curve", "source/Line.cpp: getNonlinearE, getNonlinearC, getNonlinearEI"]}
{"id": "C43", "title": "Line tension queries are consistent", "statement": "The maximum tension of a line is the largest of its node tensions, end tensions are the end segment tensions, constant stiffness is reported as constant, and the sea bed force query returns only the sea bed force.", "quantifier": "every line state", "why_tests_cant": "unbounded nodes", "anchors": ["source/Line.cpp: MoorDyn_GetLineMaxTen, MoorDyn_IsLineConstantEA, MoorDyn_GetLineFairTen, MoorDyn_GetLineNodeSeabedForce", "source/Line.hpp: getNodeTen, isConstantEA, getNodeSeabedForce"]}
{"id": "C44", "title": "Rod inertia is that of a cylinder", "statement": "The transverse moment of inertia of a rod about its end used in its equation of motion equals the one of the uniform solid cylinder whatever the number of segments.", "quantifier": "every number of segments N>=1, mass, length and diameter", "why_tests_cant": "N is unbounded", "anchors": ["source/Rod.cpp: Rod::doRHS"]}
{"id": "C45", "title": "Rod submergence does not depend on its orientation", "statement": "A rod that pierces the water surface has exactly the nodes below the surface counted as submerged, whichever of its two ends is the lower one.", "quantifier": "every rod position", "why_tests_cant": "continuous families and degenerate cases", "anchors": ["source/Rod.cpp: Rod::doRHS"]}
{"id": "C46", "title": "Point force balance", "statement": "The net force on a point is its applied force, net weight, drag and the end forces of exactly the lines attached to it; its mass is its own plus added mass plus the attached line end masses.", "quantifier": "every number of attached lines", "why_tests_cant": "unbounded attachments", "anchors": ["source/Point.cpp: Point::doRHS"]}
{"id": "C47", "title": "Input sections are read without leaving the file", "statement": "Reading an input file never accesses a line beyond the end of the file, whatever the order of sections and wherever the file ends.", "quantifier": "every list of lines", "why_tests_cant": "files are unbounded", "anchors": ["source/MoorDyn2.cpp: MoorDyn::ReadInFile, findStartOfSection"]}
{"id": "C48", "title": "Body drag coefficients are read for all axes", "statement": "A body CdA entry with one, two, three or six values fills all six coefficients as documented.", "quantifier": "every list of values", "why_tests_cant": "values unbounded", "anchors": ["source/MoorDyn2.cpp: MoorDyn::readBody"]}
{"id": "C49", "title": "Legacy singleton API", "statement": "For any sequence of calls to the v1 API, at most one system is live, MoorDynStep works exactly when a successful MoorDynInit has not been followed by MoorDynClose, and queries without a system or with an invalid line report an error value.", "quantifier": "every sequence of calls", "why_tests_cant": "histories are unbounded", "anchors": ["source/MoorDyn.cpp"]}
{"id": "C50", "title": "Object getters accept exactly the valid identifiers", "statement": "Each getter returns the object with the given 1-based identifier when it exists and NULL otherwise, and every C function given a NULL handle returns the invalid value code without touching anything.", "quantifier": "every identifier and number of objects", "why_tests_cant": "unbounded", "anchors": ["source/MoorDyn2.cpp: MoorDyn_GetLine, MoorDyn_GetPoint, MoorDyn_GetRod, MoorDyn_GetBody, CHECK_SYSTEM"]}
{"id": "C51", "title": "Log messages reach exactly the configured sinks", "statement": "A message of a given level is printed on the terminal iff its level reaches the terminal threshold (errors to stderr) and in the file iff it reaches the file threshold and a file is set.", "quantifier": "every level and configuration", "why_tests_cant": "all combinations", "anchors": ["source/Log.cpp: Log::Cout, Log::SetFile"]}
{"id": "C52", "title": "Wave time series are sampled at the right instants", "statement": "Wave and current grids return at the k-th sample time the k-th sample, periodically continued, and between samples the linear interpolation of the two neighbours, for all times.", "quantifier": "every series and time", "why_tests_cant": "unbounded times", "anchors": ["source/Waves.cpp: WaveGrid::getWaveKin, CurrentGrid::getCurrentKin"]}
{"id": "C53", "title": "Grid axes", "statement": "A lattice axis with n points from a to b has exactly n increasing, evenly spaced coordinates from a to b; a list axis is the list.", "quantifier": "every a<b and n>=2", "why_tests_cant": "n unbounded", "anchors": ["source/Waves.cpp: gridAxisCoords"]}
{"id": "C54", "title": "External wave kinematics go to the node they were given for", "statement": "The i-th velocity and acceleration given by the caller is applied to the i-th node reported by the coordinates query, for every system; too few entries are rejected.", "quantifier": "every number of objects and nodes", "why_tests_cant": "unbounded", "anchors": ["source/Waves.cpp: kinematicsForAllNodes, getWaveKinematicsPoints, setWaveKinematics"]}
{"id": "C55", "title": "Switching the time scheme keeps the simulated time", "statement": "Setting another time scheme through the API keeps all registered objects, the state and the current simulation time.", "quantifier": "every system and time", "why_tests_cant": "unbounded states", "anchors": ["source/MoorDyn2.hpp: SetTimeScheme", "source/MoorDyn2.cpp: MoorDyn_SetTimeScheme"]}
{"id": "C56", "title": "Local time steps never starve an object", "statement": "With local time stepping, the derivative of a line is recomputed before more than its own stable time step has elapsed since it was last computed.", "quantifier": "every sequence of steps", "why_tests_cant": "unbounded step sequences", "anchors": ["source/Time.cpp: LocalTimeSchemeBase::SetCalcMask, ComputeDt"]}
{"id": "C57", "title": "Relaxation of implicit schemes", "statement": "The relaxation factor is in (0,1] and is 1 on the last inner iteration, so that a fixed point of the inner iteration is preserved by mixing, for every number of iterations.", "quantifier": "every number of iterations and constants in the used range", "why_tests_cant": "iterations unbounded", "anchors": ["source/Time.cpp: ImplicitSchemeBase::Relax", "source/State.cpp: Mix"]}
{"id": "C58", "title": "Output header and state vector bookkeeping", "statement": "The number of state entries counted while reading the file equals the number of entries of the integrated state.", "quantifier": "every system layout", "why_tests_cant": "unbounded layouts", "anchors": ["source/MoorDyn2.cpp: ReadInFile (nX)"]}
{"id": "C59", "title": "Equilibria are fixed points of the time schemes", "statement": "When the objects answer a zero derivative at a state, a step of any time scheme leaves that state unchanged, for every step size and number of inner iterations.", "quantifier": "every equilibrium, system layout, dt, number of inner iterations", "why_tests_cant": "needs all equilibria and steps; drift of a quaternion by one step is below usual tolerances", "anchors": ["source/Time.cpp: *Scheme::Step", "source/State.cpp: Newmark, Wilson"]}
{"id": "C60", "title": "Orientation angles and internal orientation agree", "statement": "The orientation stored for given roll, pitch and yaw angles is the rotation RotX*RotY*RotZ of these angles; the angles reported for any stored orientation describe the same rotation, including at pitch +-90 degrees; reported roll and yaw lie in [-pi, pi) and pitch in [-pi/2, pi/2]; and angles inside these ranges survive being set and read back.", "quantifier": "every angle triple and every non-zero quaternion", "why_tests_cant": "three continuous angles, with singular cases", "anchors": ["source/Misc.hpp: Euler2Quat, Quat2Euler, canonicalEulerAngles, XYZQuat::fromVec6, XYZQuat::toVec6, RotXYZ"]}
{"id": "C61", "title": "Inclination and heading of a direction", "statement": "The inclination and heading computed for a direction rebuild the direction, the inclination lies in [0, pi] and the heading in (-pi, pi], and a vector shorter than 1e-6 is rejected with an error.", "quantifier": "every vector", "why_tests_cant": "continuous inputs", "anchors": ["source/Misc.cpp: orientationAngles"]}
{"id": "C62", "title": "The orientation of a rigid object follows its angular velocity", "statement": "The rate of change reported for the orientation of a free body or rod turns every vector fixed to it with its angular velocity and leaves the orientation normalised; in particular an object without angular velocity does not turn.", "quantifier": "every orientation, angular velocity and rod, including zero-length rods", "why_tests_cant": "continuous inputs; the defect is in one special case", "anchors": ["source/Body.cpp: getStateDeriv", "source/Rod.cpp: getStateDeriv"]}
{"id": "C63", "title": "Internal line forces exert no moment", "statement": "About any point, the tension, internal damping and bending forces of a line with pinned ends have no net moment, so a free line never starts turning by itself.", "quantifier": "every number of segments, every configuration and every reference point", "why_tests_cant": "needs all shapes of the line and the exact cancellation between neighbouring bending couples", "anchors": ["source/Line.cpp: Line::getStateDeriv", "source/Misc.hpp: unitvector, GetCurvature"]}
{"id": "C64", "title": "Line nodes obey Newton's second law", "statement": "The mass matrix of every line node (structural plus added mass) is symmetric positive definite, at least the node's own mass in every direction, and the acceleration returned satisfies mass times acceleration equals net force.", "quantifier": "every line with positive mass and non-negative added mass coefficients, every submergence", "why_tests_cant": "invertibility is needed for all directions and submergences, a test samples a few", "anchors": ["source/Line.cpp: Line::getStateDeriv"]}
{"id": "C65", "title": "Internal damping only dissipates", "statement": "Internal damping never adds power to a line: compared with the same line without damping, the forces do less work by the damping coefficient times the squared stretching rate of each segment.", "quantifier": "every configuration, velocity and damping input", "why_tests_cant": "a sign error shows only for some motions", "anchors": ["source/Line.cpp: Line::getStateDeriv, getNonlinearC"]}
{"id": "C66", "title": "Lines conserve energy apart from damping", "statement": "For a line of constant stiffness the work of its internal forces is exactly minus the rate of change of the elastic energy minus the damping losses, also at the transition between slack and taut.", "quantifier": "every configuration and every differentiable motion of the nodes", "why_tests_cant": "an identity between derivatives along all motions", "anchors": ["source/Line.cpp: Line::getStateDeriv"]}
{"id": "C67", "title": "Rods float as Archimedes says", "statement": "In still water the water pushes a rod up with the weight of the water it displaces, through the centre of the displaced volume, for every depth and inclination; the buoyancy does not jump when the rod crosses the surface.", "quantifier": "every rod geometry, number of segments, inclination and water level", "why_tests_cant": "continuous family of positions; the defect shows only for small immersions", "anchors": ["source/Rod.cpp: Rod::doRHS"]}
{"id": "C68", "title": "The centre of mass of a free rod obeys Newton's second law", "statement": "Mass times the acceleration of the centre of mass of a free rod equals the sum of the external forces on it, whatever its rotation; in particular in vacuum the centre of mass falls with g.", "quantifier": "every rod, orientation and angular velocity", "why_tests_cant": "the missing term is quadratic in the angular velocity and invisible at rest", "anchors": ["source/Rod.cpp: Rod::doRHS, Rod::getStateDeriv"]}
{"id": "C69", "title": "Rod nodes are rigid", "statement": "The nodes of a rod are equally spaced, span exactly its length and move with the velocity of a rigid body.", "quantifier": "every number of segments, position, orientation and velocity", "why_tests_cant": "all states", "anchors": ["source/Rod.cpp: Rod::setDependentStates, Rod::doRHS"]}
{"id": "C70", "title": "The submerged fraction of a rod node is a fraction", "statement": "The submerged fraction computed for every rod node lies between 0 and 1, for every position of the rod relative to the water.", "quantifier": "every rod, pose and wave elevation", "why_tests_cant": "continuous inputs", "anchors": ["source/Rod.cpp: Rod::doRHS"]}
{"id": "C71", "title": "Newton's third law across the system", "statement": "For every system of lines joined by points, the sum of the net forces on all points and on all inner line nodes equals the sum of the forces from outside (weight, buoyancy, water, sea bed, applied forces): the forces objects exert on each other cancel.", "quantifier": "every set of lines and points, every attachment of both ends of each line to some point, every state and sea", "why_tests_cant": "sums over arbitrarily many objects and nodes", "anchors": ["source/Point.cpp: Point::doRHS, Point::getNetForceAndMass", "source/Line.cpp: Line::getEndStuff, Line::getStateDeriv"]}
{"id": "C72", "title": "Linear momentum of bodies", "statement": "For a free body, mass times the acceleration of its centre of gravity plus the rate of the momentum of all attached points and rods equals the sum of all forces on the body and on what it carries. The force reported for a coupled body is the sum of the forces on what it carries less what is needed to carry it along.", "quantifier": "every body, pose, velocity and list of attached points and rods", "why_tests_cant": "sums over arbitrarily many parts; continuous inputs", "anchors": ["source/Body.cpp: Body::doRHS, Body::getStateDeriv, Body::getFnet", "source/Rod.cpp: Rod::getNetForceAndMass", "source/Point.cpp: Point::getNetForceAndMass"]}
{"id": "C73", "title": "Angular momentum of bodies", "statement": "The angular momentum about its centre of gravity of a free body on which no moment acts stays constant.", "quantifier": "every free body, pose and velocity", "why_tests_cant": "continuous inputs; needs the exact rigid body equations", "anchors": ["source/Body.cpp: Body::doRHS, Body::getStateDeriv"]}
{"id": "C74", "title": "What is handed to a body acts where it acts", "statement": "The force and moment an attached point or rod hands to its body are equivalent to the forces on it acting at its position, and the 6x6 mass it hands over has the kinetic energy of the attached mass moving with the body.", "quantifier": "every attached point or rod, position and velocity", "why_tests_cant": "continuous inputs", "anchors": ["source/Point.cpp: Point::getNetForceAndMass", "source/Rod.cpp: Rod::getNetForceAndMass", "source/Misc.hpp: translateForce3to6DOF, translateMass3to6DOF"]}
{"id": "C75", "title": "A free body has one acceleration", "statement": "The mass matrix of a free body with non-negative mass properties of what it carries is symmetric and positive definite, has the kinetic energy of the body, of the water moving with it and of its parts, and the acceleration of the body exists and is unique.", "quantifier": "every body with positive mass and inertia, every pose and list of parts", "why_tests_cant": "matrix property over continuous inputs and arbitrarily many parts", "anchors": ["source/Body.cpp: Body::setup, Body::doRHS, Body::getStateDeriv", "source/Misc.cpp: solveMat6"]}
{"id": "C76", "title": "Water acts only on what is in it", "statement": "A point or body that is out of the water feels no buoyancy, no added mass and no drag from the water.", "quantifier": "every point and body above the free surface", "why_tests_cant": "continuous inputs", "anchors": ["source/Point.cpp: Point::doRHS", "source/Body.cpp: Body::doRHS"]}
{"id": "C77", "title": "The implicit Newmark scheme is the Newmark method", "statement": "A step of the implicit Newmark scheme advances every coordinate of points and line nodes by the Newmark formulas with the accelerations at the start of the step and at the last iterate. Uniform acceleration is integrated exactly for any number of iterations, converged steps keep the energy of an oscillator, and the rates kept for the next step are those of the new state.", "quantifier": "every system, number of iterations, weights, step size and state", "why_tests_cant": "continuous inputs, arbitrary sizes and iteration counts", "anchors": ["source/Time.cpp: ImplicitNewmarkScheme::Step", "source/State.cpp: DMoorDynStateDt::Newmark"]}
{"id": "C78", "title": "The implicit Wilson scheme integrates free fall exactly", "statement": "A step of the implicit Wilson scheme integrates a uniformly accelerated motion exactly: x + v dt + a dt^2 / 2.", "quantifier": "every system, theta, step size and state", "why_tests_cant": "continuous inputs", "anchors": ["source/Time.cpp: ImplicitWilsonScheme::Step", "source/State.cpp: DMoorDynStateDt::Wilson"]}
{"id": "C79", "title": "The step factor of the stationary solver is controlled", "statement": "Every step of the stationary solver keeps its step factor, raises it by one percent or lowers it by one percent, and holds it between 0.1 and 50; it is kept exactly when no former error is known.", "quantifier": "every system, state and step", "why_tests_cant": "unbounded histories of steps", "anchors": ["source/Time.cpp: StationaryScheme::Step"]}
{"id": "C80", "title": "Wave kinematics follow the water column", "statement": "The kinematics of a wave grid are read at a depth that maps the actual water column, from the local sea bed to the local elevation, linearly onto the reference column from the average depth to the mean level; a position above the elevation gets the values of the surface, a position on the sea bed those of the bottom of the grid.", "quantifier": "every grid, position, elevation and sea bed", "why_tests_cant": "continuous family of positions and elevations", "anchors": ["source/Waves.cpp: WaveGrid::getWaveKin"]}
{"id": "C81", "title": "Gridded data are reproduced", "statement": "Elevation, velocity, acceleration and pressure of wave and current grids take the tabulated values at grid nodes, never leave the range of the samples around the position, reproduce affine fields exactly, are held constant outside of the grid, and never access the tables out of range.", "quantifier": "every grid size and position", "why_tests_cant": "unbounded sizes and continuous positions", "anchors": ["source/Waves.cpp: WaveGrid::getWaveKin, CurrentGrid::getCurrentKin", "source/Util/Interp.hpp: interp3, interp4, interp4Vec, interp_factor"]}
{"id": "C82", "title": "Failures happen at their time", "statement": "A failure configured for time T detaches its lines at the end of the first step that reaches T, not before, and only once.", "quantifier": "every failure list, system and sequence of steps", "why_tests_cant": "times and histories are unbounded", "anchors": ["source/MoorDyn2.cpp: MoorDyn::Step, detachLines"]}
{"id": "C83", "title": "Detaching keeps the time step restriction", "statement": "After lines are detached, every object is still limited by the stable time step of each line attached to it.", "quantifier": "every system layout and failure", "why_tests_cant": "unbounded layouts", "anchors": ["source/Util/CFL.hpp: SuperCFL", "source/Point.cpp: removeLine", "source/Rod.cpp: removeLine"]}
{"id": "C84", "title": "Each node sees the waves and currents of its own position", "statement": "In every mode other than externally set kinematics, after the update of the water kinematics each node of each line, rod, point and body has the velocity and acceleration of the waves plus those of the currents evaluated at its own position and the current time, and the elevation and dynamic pressure of the waves.", "quantifier": "all systems, positions, times, wave and current fields", "why_tests_cant": "Tests run small systems with one line; the order of the loops over lines, rods, points and bodies and their nodes is only checked indirectly.", "anchors": ["source/Waves.cpp: Waves::updateWaves, Waves::kinematicsForAllNodes"]}
{"id": "C85", "title": "Malformed input is reported as an error", "statement": "MoorDyn_Create on an input file with missing fields, wrong words or references to objects that do not exist returns NULL; it neither crashes nor lets an exception escape.", "quantifier": "every list of lines", "why_tests_cant": "The number of malformed files is unbounded and each table has its own checks; a crash on one of them depends on fields that tests do not leave out", "anchors": ["source/MoorDyn2.cpp: MoorDyn::ReadInFile, readRod, readOptionsLine, MoorDyn_Create"]}
{"id": "C86", "title": "The system is the one described by the tables of the file", "statement": "When the input file is accepted, there is one body, point, rod and line per row of its table, in that order, with the values of the row; every reference (line end, parent body, type, failure) is to an existing object, the one whose number is given.", "quantifier": "every list of lines accepted", "why_tests_cant": "It is about every combination of tables and references between them", "anchors": ["source/MoorDyn2.cpp: MoorDyn::ReadInFile, readBody, readRod", "docs/inputs.rst"]}
{"id": "C87", "title": "Only the sections of the file matter", "statement": "The system that is read depends on the rows of the sections only: not on the order of the sections, nor on titles and text around them; all rows of all sections count.", "quantifier": "every pair of lists of lines with the same sections", "why_tests_cant": "It compares all arrangements of the same sections and all possible titles", "anchors": ["source/MoorDyn2.cpp: MoorDyn::findStartOfSection, ReadInFile"]}
{"id": "C88", "title": "Output channels report the quantity they name", "statement": "Every channel named as in the table of the documentation (object, number, optional node or end, quantity, in any case) yields the documented quantity of that object or node with the documented unit; FAIRTENn equals LINEnTENB and ANCHTENn equals LINEnTENA.", "quantifier": "for all systems, all object and node numbers, all quantities and spellings of a channel name, all values of the objects", "why_tests_cant": "The names, objects, nodes and quantities combine freely; tests read a few channels by eye", "anchors": ["source/MoorDyn2.cpp: AllOutput, ReadInFile (OUTPUTS)", "source/MoorDyn2.hpp: GetOutput", "source/Line.cpp: GetLineOutput", "source/Rod.cpp: GetRodOutput", "source/Point.cpp: GetPointOutput", "source/Body.cpp: GetBodyOutput", "docs/inputs.rst: Outputs"]}
{"id": "C89", "title": "Bending stiffness follows the curvature of the line", "statement": "A line with bending stiffness laid along a circle reports the direction and curvature of that circle at its inner nodes, uniform bending exerts no force away from the ends, and the power of the bending forces is what the bending energy loses.", "quantifier": "for all circles, numbers of segments, stiffnesses and motions without stretching, above the numerical tolerances", "why_tests_cant": "Exactness on all circles and an energy balance over all motions are not finitely testable", "anchors": ["source/Line.cpp: getStateDeriv (l.797-1017)", "source/Misc.cpp: GetCurvature"]}
{"id": "C90", "title": "Waves summed over components are linear waves", "statement": "With the sum of components (WaveKin 7) the water is an incompressible and irrotational flow below a surface that moves with the water, every component travels with the wave number of its frequency, the acceleration is the rate of change of the velocity, and the dynamic pressure belongs to the same flow.", "quantifier": "for all spectra of non-negative frequencies, depths, positions under the surface and times", "why_tests_cant": "Field equations over all positions, times and spectra are not finitely testable", "anchors": ["source/Waves/SpectrumKin.cpp: setup, getWaveKin", "source/Misc.cpp: WaveNumber", "source/Waves.hpp: SpectrumKinWrapper"]}
{"id": "C91", "title": "Resampling a spectrum keeps it", "statement": "A spectrum from a file with increasing frequencies is resampled at the multiples of its smallest spacing by linear interpolation, keeps an evenly spaced spectrum as it is, keeps all its components, and rejects frequencies that do not increase.", "quantifier": "for all spectra with at least two components starting at frequency 0", "why_tests_cant": "All spacings and numbers of components are not finitely testable", "anchors": ["source/Waves/WaveSpectrum.cpp: DiscreteWaveSpectrum::interpEvenlySpaced", "source/Util/Interp.hpp: lerp, interp_factor"]}
{"id": "C92", "title": "The Fourier transforms behind the wave grids are the discrete transforms, for every number of samples", "statement": "For every number of samples n the complex transform computes the discrete Fourier transform of the n samples, without writing anywhere else; for every even n the forward transform of a real record gives the n/2+1 components of its discrete transform, the inverse transform gives the n samples of the real record with the given components, and forward followed by inverse gives back n times the record. The number of factors of any 32 bit size fits in the memory reserved for them. Odd sizes are refused.", "quantifier": "all sizes (all factorisations: radices 2, 3, 4, 5 and any other), all records, all contents of the memory around the arrays", "why_tests_cant": "The transform recurses over the factorisation of the size with five hand written butterflies and in-place updates; tests compare a few sizes numerically and cannot show that every factorisation, index and sign is right", "anchors": ["source/kiss_fft.cpp:kf_bfly2", "source/kiss_fft.cpp:kf_bfly3", "source/kiss_fft.cpp:kf_bfly4", "source/kiss_fft.cpp:kf_bfly5", "source/kiss_fft.cpp:kf_bfly_generic", "source/kiss_fft.cpp:kf_work", "source/kiss_fft.cpp:kf_factor", "source/kiss_fft.cpp:kiss_fft_alloc", "source/kiss_fftr.cpp:kiss_fftr_alloc", "source/kiss_fftr.cpp:kiss_fftr", "source/kiss_fftr.cpp:kiss_fftri"]}
{"id": "C93", "title": "A wave grid holds the waves of the file it is made from", "statement": "The grid precomputed from a spectrum (WaveKin 2) holds, at every node and instant, the elevation, velocity, acceleration and dynamic pressure of linear waves whose components are those of the file (resampled evenly), all of them with their full amplitude and with the same meaning as in the sum of components (WaveKin 7); the grid made from a record of the elevation (WaveKin 3) reproduces the record at the origin and carries its components as linear waves along x.", "quantifier": "for all spectra of increasing frequencies from 0, all records with increasing times, all axes of the grid, depths and sampling intervals", "why_tests_cant": "The grid is filled by inverse transforms of products of complex factors; that every sample equals a field satisfying the wave equations cannot be seen from finitely many spectra and nodes", "anchors": ["source/Waves/WaveGrid.cpp: doIFFT, fillWaveGrid, constructWaveGridSpectrumData, constructWaveGridElevationData", "docs/waterkinematics.rst: WaveKin = 2, 3, 7"]}
{"id": "C94", "title": "Currents described in files", "statement": "A steady current profile (depth, then velocity) gives everywhere the linear interpolation of its rows in depth, the nearest row outside; a dynamic profile interpolates in time and depth; a 4D file gives at each of its nodes the velocity of its line; files with too few lines or columns are refused; when waves and currents share a grid every node's velocity is the sum of both and nothing else changes. The order of the rows, the spelling of numbers and the instant within the record must not matter", "quantifier": "for all files, positions and instants", "why_tests_cant": "the text of the files is unbounded and the tables are read at real-valued positions and times; a test fixes one file and a few positions", "anchors": ["source/Waves/WaveGrid.cpp:constructSteadyCurrentGrid", "source/Waves/WaveGrid.cpp:constructDynamicCurrentGrid", "source/Waves/WaveGrid.cpp:construct4DCurrentGrid", "source/Waves.cpp:Waves::setup"]}
{"id": "C95", "title": "Lines start in static equilibrium", "statement": "After initialization a line has its N+1 nodes, the first and last at its end points. The others lie in the vertical plane through the ends: at even unstretched distances along an elastic line in static equilibrium under its weight in the water (and on a flat sea bed at the height of its lower end, if an end touches the bed), or evenly along the straight line. With both ends clear of the sea bed and apart horizontally, a line with weight always gets the equilibrium; vertical lines, weightless lines, and lines that would lie slack on the bed are straight. The tensions accepted by the iteration are within Tol/(1 - Tol I) of tensions that bring the end to its place to first order. A line whose first end is below the sea bed is refused.", "quantifier": "all end points, sea beds, lengths, stiffnesses, densities, numbers of segments; for the catenary routine all distances, frictions, tolerances and node places", "why_tests_cant": "Equilibrium is a statement about every point of the line and about derivatives; the iteration may take 100000 steps and tests look only at a few shapes that converge.", "anchors": ["source/QSlines.hpp: Catenary", "source/Line.cpp: Line::initialize"]}
{"id": "C96", "title": "A negative damping coefficient is a fraction of critical damping", "statement": "When the internal damping of a line type is given as -zeta, every node of the line is damped with the fraction zeta of critical damping in the motion in which neighbouring nodes move against each other, whatever the stiffness, density, area, length and number of segments; a coefficient that is not negative is used as it is.", "quantifier": "all zeta > 0, stiffnesses, densities, areas, lengths, numbers of segments", "why_tests_cant": "The ratio is a relation between the mass, stiffness and damping for all parameters; a simulation shows the damping of one line only approximately.", "anchors": ["source/Line.cpp: Line::initialize", "docs/troubleshooting.rst"]}
{"id": "C97", "title": "The initial condition generation ends, leaves drag and clock as given, and hands over a converged state", "statement": "Init computes an initial condition before the simulation. With ICgenDynamic it simulates the system with the drag coefficients times CdScaleIC until the fairlead tensions have been converged to threshIC for a time dtIC, or TmaxIC is reached; otherwise it iterates a static solver until the residual accelerations have become small. In both cases it ends, never exceeds TmaxIC by more than one check period, restores all drag coefficients, and starts the simulation at time zero.", "quantifier": "every mooring system, time scheme, dtM, dtIC, TmaxIC, threshIC, CdScaleIC and history of tensions", "why_tests_cant": "a test sees a system that converges; it sees neither a system that drifts slowly, nor the number of checks made, nor the coefficients of every object after success and failure", "anchors": ["source/MoorDyn2.cpp: MoorDyn::icLegacy, MoorDyn::icStationary, MoorDyn::Init", "source/Line.hpp: Line::scaleDrag", "source/Rod.hpp: Rod::scaleDrag", "source/Point.hpp: Point::scaleDrag", "source/Body.hpp: Body::scaleDrag", "docs/inputs.rst: dtIC, TmaxIC, CdScaleIC, threshIC, ICgenDynamic"]}
{"id": "C98", "title": "Output files are complete tables with the right columns", "statement": "After any number of outputs of a model with any lines, rods, bodies and channels, the file of a line or rod exists exactly if one of its documented output flags is given; it consists of one line with the names of the columns, one line of units if units are wanted, and one row per output with the time and, in the column of each name, the value of that quantity at that node or segment. The file of a body and the main file likewise. If a channel of the main file fails, the error is returned and no complete row is written.", "quantifier": "all numbers of segments, flag strings, types of rods and bodies, channels, states and numbers of outputs", "why_tests_cant": "Tests look at one or two files by eye; that names, units and values stay aligned for every combination of flags and every number of segments, and that each head is written exactly once whatever the type of object, is a statement about all of them.", "anchors": ["source/Line.cpp: Line::initialize, Line::Output", "source/Rod.cpp: Rod::openoutput, Rod::Output", "source/Body.cpp: Body::initialize, Body::initializeUnfreeBody, Body::Output", "source/MoorDyn2.cpp: MoorDyn::Init, MoorDyn::AllOutput", "source/Time.hpp: TimeSchemeBase::Init", "docs/inputs.rst"]}
{"id": "C99", "title": "WaveKin and Currents give the flow they are documented to give", "statement": "With the files that the chosen options need, every documented pair of WaveKin (0, 1, 2, 3, 7) and Currents (0, 1, 2, 5) is accepted, and during the simulation the water at every node moves as documented: the flow of the waves plus the flow of the currents, or the flow of the one grid if they are unified; with external waves what the caller gave plus the currents. The water depth is the same afterwards. Nothing is simulated without the files, and options that are not implemented are refused.", "quantifier": "all integers for WaveKin and Currents, both values of the unification option, all contents of files, with and without a sea floor file, both kinds of builds, all nodes", "why_tests_cant": "Tests run a few of the pairs of options and look at one record; they do not run the undocumented integers, and they are compiled in one way.", "anchors": ["source/Waves.cpp: Waves::setup", "source/Waves.cpp: Waves::getWaveKin", "source/Waves.cpp: Waves::updateWaves", "source/Waves.cpp: Waves::getWaveHeightPoint", "source/Waves/WaveOptions.hpp", "source/MoorDyn2.cpp: MoorDyn::Init", "source/MoorDyn2.cpp: MoorDyn::readOptionsLine", "docs/waterkinematics.rst"]}
{"id": "C100", "title": "Lines clamped to rods exchange bending moments with them", "statement": "A line attached to the end of a rod follows the end of the rod and leaves it in its direction; its bending moment there acts on the line and, with opposite sign, on the rod. Where a rod without length joins lines, the joint takes the direction in which the bending moments of the lines balance.", "quantifier": "every rod with or without length, any number of lines at either of its ends with either of their own ends, every stiffness and geometry", "why_tests_cant": "tests run one or two symmetric lines, where a lost moment or a wrong weight does not show", "anchors": ["source/Line.cpp: Line::setEndKinematics, Line::setEndOrientation, Line::getEndSegmentMoment, Line::initialize", "source/Line.hpp: Line::getEndStuff", "source/Rod.cpp: Rod::setDependentStates", "docs/structure.rst: endMomentA, endMomentB"]}
{"id": "C101", "title": "The direction of the horizontal axes does not matter", "statement": "Describe the same mooring system, sea and vessel motion in horizontal axes that are turned, reflected or shifted: every line, point, rod and body gets the same forces, masses and accelerations expressed in the new axes, and a whole coupled simulation fails or succeeds alike and returns the same mooring forces at every step.", "quantifier": "all rotations, reflections and translations of the horizontal plane; all lines, points, rods, bodies, water kinematics and bathymetries; whole simulations of lines and points with any number of objects, coupling steps and sub-steps, for all time schemes that update all objects", "why_tests_cant": "A test compares a few headings; a term that mixes up x and y, or a scheme that looks at components, shows only for some directions and systems.", "anchors": ["source/Line.cpp:Line::getStateDeriv", "source/Point.cpp:Point::doRHS", "source/Rod.cpp:Rod::doRHS", "source/Body.cpp:Body::doRHS", "source/Misc.cpp:orientationAngles", "source/Time.cpp:TimeSchemeBase::Update", "source/Time.cpp:TimeSchemeBase::CalcStateDeriv", "source/MoorDyn2.cpp:MoorDyn::Step", "source/Time.hpp:AndersonSchemeBase::converged"]}
{"id": "C102", "title": "A line may be described from either end", "statement": "Exchanging the two ends of a line (node order, end attachments, segment lengths) gives the same tensions and the same forces and masses at the same places.", "quantifier": "all lines with at least one segment, all tension, damping and bending curves, water kinematics and bathymetries", "why_tests_cant": "Tests describe each line in one order; asymmetric treatment of the two ends shows only in particular positions such as a node at the water level.", "anchors": ["source/Line.cpp:Line::getStateDeriv", "source/Line.cpp:Line::calcSubSeg"]}
{"id": "C103", "title": "Unconnected mooring systems do not affect each other", "statement": "Put two mooring systems without a common line, point or attachment into one input: at every coupling step the forces at the coupled points and the motion of the lines and points of each are exactly those of a simulation of that system alone, and the combined force array is the first system's forces followed by the second's.", "quantifier": "all systems of lines and points, all numbers of objects, all ways of interleaving them, all numbers of coupling steps and sub-steps, all time schemes that treat the objects one by one", "why_tests_cant": "A test couples a few systems; wrong indices, shared accumulators or a scheme that looks at all objects show only for particular orders and combinations.", "anchors": ["source/MoorDyn2.cpp:MoorDyn::Step", "source/Time.cpp:TimeSchemeBase::Update", "source/Time.cpp:TimeSchemeBase::CalcStateDeriv", "source/Time.cpp:StationaryScheme::Step", "source/State.cpp:DMoorDynStateDt::MakeStationary", "source/Point.cpp:Point::doRHS", "source/Point.cpp:Point::setKinematics", "source/MoorDyn2.hpp:MoorDyn::GetForces"]}
{"id": "C104", "title": "The order in which lines and points are listed does not matter", "statement": "Listing the lines, the points or the attachments of a point in another order gives the same motion of every line and point and the same forces at the coupled points, found under the new numbers; one listing runs exactly if the other does.", "quantifier": "all systems of lines and points, all renumberings, all numbers of coupling steps and sub-steps, all time schemes that treat the objects one by one", "why_tests_cant": "A test tries a few orders; an end written twice, or a sum that depends on what was written before, shows only for some orders.", "anchors": ["source/Time.cpp:TimeSchemeBase::Update", "source/Time.cpp:TimeSchemeBase::CalcStateDeriv", "source/Line.cpp:Line::setEndKinematics", "source/Point.cpp:Point::doRHS", "source/MoorDyn2.cpp:MoorDyn::Step"]}
{"id": "C105", "title": "The tensions reported for FAST are the forces of the lines at their ends", "statement": "For every line MoorDyn_GetFASTtens gives the horizontal and vertical part of the force of the line at its fairlead and at its anchor, the same forces as the force queries of the line, and they do not depend on the direction of the horizontal axes.", "quantifier": "all lines, all states and waters, all turns, reflections and shifts of the axes", "why_tests_cant": "A test compares a few numbers with those of an earlier version; an extra term that depends on the direction of the line looks like any other number.", "anchors": ["source/Line.hpp:Line::getFASTtens", "source/MoorDyn2.cpp:MoorDyn_GetFASTtens", "source/Line.cpp:Line::getStateDeriv"]}
{"id": "C106", "title": "Drag, added mass and fluid inertia follow Morison's equation", "statement": "For a line or rod under water in a uniform flow the forces of the water are those of Morison's equation with the documented reference areas and volumes (Cdn with d L, Cdt with pi d L, CdEnd with the end areas, Can, Cat and CaEnd with the displaced water), the added mass likewise, the drag of a body is CdA in each of its axes, and every object that has the density of the water and moves with it is accelerated like the water.", "quantifier": "all straight lines and all rods of every number of segments, direction, size and coefficient, all uniform flows and accelerations; all neutral points and bodies", "why_tests_cant": "A test compares a single force with a stored number; the factor of a coefficient that is zero or of a term missing for one kind of object does not show.", "anchors": ["source/Line.cpp:Line::getStateDeriv", "source/Rod.cpp:Rod::doRHS", "source/Point.cpp:Point::doRHS", "source/Body.cpp:Body::doRHS", "docs/inputs.rst"]}
{"id": "C107", "title": "A pin transmits force but no moment, and carries the motion of its holder", "statement": "A rod pinned to the vessel or to a body turns like a uniform cylinder hinged at a point that moves with its holder: its weight and the loads on it, and no moment at the hinge, change its angular momentum; the holder gets the reaction at the hinge, which is weight less rate of change of momentum, and no moment.", "quantifier": "all pinned, coupled-pinned and coupled rods of every number of segments, direction, angular velocity, history of updates and motion of the holder, in vacuum", "why_tests_cant": "The usual test lets a pinned rod swing from a fixed point across its axis, where the missing terms vanish; only a rod that spins, or whose holder accelerates, shows them.", "anchors": ["source/Rod.cpp:Rod::getStateDeriv", "source/Rod.cpp:Rod::getFnet", "source/Rod.cpp:Rod::getNetForceAndMass", "source/Rod.cpp:Rod::updateFairlead", "source/Rod.cpp:Rod::setKinematics"]}
{"id": "C108", "title": "Rods start where the input file puts them", "statement": "A rod given with end A at A and end B at B (in the frame of its body if it has one) lies from A to B after Init, and the lines attached to its ends start there; rods on bodies lie where the body carries them.", "quantifier": "all rods of every kind, ends, numbers of segments, attached lines, positions and orientations of bodies", "why_tests_cant": "A test with a rod along the line through the origin, or on a body that is not turned, starts right; the wrong place is only seen in the output at time zero.", "anchors": ["source/Rod.cpp:Rod::setup", "source/Rod.cpp:Rod::initialize", "source/Rod.cpp:Rod::setState", "source/Rod.cpp:Rod::setKinematics", "source/Body.cpp:Body::addRod", "source/Body.cpp:Body::setDependentStates"]}
{"id": "C109", "title": "Velocities of coupled bodies and rods are the derivatives of their positions", "statement": "Between two calls a coupled body or rod follows the positions and rates given by the caller, and the velocities of everything attached to it (points, ends of lines) are the derivatives of their positions.", "quantifier": "all positions, angles and rates, attached points, rods and times", "why_tests_cant": "With small angles, or one angle only, rates of angles and angular velocity agree; a test with those cannot tell them apart.", "anchors": ["source/Body.cpp:Body::updateFairlead", "source/Body.cpp:Body::setDependentStates", "source/Rod.cpp:Rod::updateFairlead", "source/Rod.cpp:Rod::setDependentStates"]}
{"id": "C110", "title": "After every step everything attached is where its holder is and moves with it", "statement": "After every internal or coupling step, whatever the forces and the time scheme, points and rods on a body are where the body takes them and have its rigid-body velocity, the ends of lines are at their points and rod ends with the same velocity and the right clamping, coupled objects are where the caller's position and velocity lead them after the time elapsed in the coupling step, free objects are where the state has them, and nothing got attached or detached.", "quantifier": "all systems of bodies, rods, points and lines of every type as input files can describe them, all time schemes, step lengths (positive or not), states, forces, boundary conditions and numbers of steps", "why_tests_cant": "A test looks at a few objects of one kind after a few steps; the order in which objects of all kinds are updated matters only for chains (body, rod, line) and for schemes with inner evaluations.", "anchors": ["source/Time.cpp:TimeSchemeBase::Update", "source/Time.cpp:TimeSchemeBase::CalcStateDeriv", "source/Body.cpp:Body::setDependentStates", "source/Body.cpp:Body::updateFairlead", "source/Body.cpp:Body::setState", "source/Body.cpp:Body::initiateStep", "source/Rod.cpp:Rod::setKinematics", "source/Rod.cpp:Rod::setState", "source/Rod.cpp:Rod::updateFairlead", "source/Rod.cpp:Rod::initiateStep", "source/Rod.cpp:Rod::setDependentStates", "source/Point.cpp:Point::setKinematics", "source/Point.cpp:Point::updateFairlead", "source/Point.cpp:Point::setState", "source/Line.cpp:Line::setState", "source/Line.cpp:Line::setEndKinematics"]}
{"id": "C111", "title": "A Python call hands over what it is given and ends properly", "statement": "Whatever sequences a Python program passes, the numbers in them reach the library unchanged and in order, or the expected exception is raised and no system changes; what the library answers is returned in the documented form; no call with handles of open systems crashes the interpreter or fails without an exception.", "quantifier": "all Python values, all libraries behind the module, all states, all outcomes of malloc (for the absence of crashes)", "why_tests_cant": "A test passes lists of the right length; the arguments a program may pass have every type and length.", "anchors": ["wrappers/python/cmoordyn.cpp:step", "wrappers/python/cmoordyn.cpp:init", "wrappers/python/cmoordyn.cpp:ext_wave_set", "wrappers/python/cmoordyn.cpp:line_set_pint", "wrappers/python/cmoordyn.cpp:py_iterable_to_double", "wrappers/python/cmoordyn.cpp:waves_getkin", "wrappers/python/cmoordyn.cpp:deserialize", "wrappers/python/cmoordyn.cpp:line_set_pbend"]}
{"id": "C112", "title": "A Python call leaves nothing behind", "statement": "Whether a call succeeds or raises, every object reference and every block of memory it took is given back, and none is given away that it does not hold.", "quantifier": "all Python values, states and libraries; any number of calls", "why_tests_cant": "A leak does not change any result; tests do not count references, and the failing calls are the ones that leak.", "anchors": ["wrappers/python/cmoordyn.cpp:step", "wrappers/python/cmoordyn.cpp:init", "wrappers/python/cmoordyn.cpp:ext_wave_set", "wrappers/python/cmoordyn.cpp:get_fast_tens", "wrappers/python/cmoordyn.cpp:save", "wrappers/python/cmoordyn.cpp:load", "wrappers/python/cmoordyn.cpp:serialize"]}
{"id": "C113", "title": "Python handles are checked", "statement": "A call given anything but a handle of the right kind raises an exception and changes nothing; closing a system affects no other; a handle of a closed system is refused.", "quantifier": "all functions of the module, all values in place of the handle, all states", "why_tests_cant": "A test uses the handles it was given, in the right order.", "anchors": ["wrappers/python/cmoordyn.cpp:close", "wrappers/python/cmoordyn.cpp:PyCapsule_GetPointer"]}
{"id": "C114", "title": "The Python functions do what they are documented to do", "statement": "Each function of the Python package returns, in the documented form, what the C function of the same name answers for the same arguments, and has the same effect on the system.", "quantifier": "all functions of the package, all arguments of the documented types, all libraries and states", "why_tests_cant": "The repository's Python tests call a few of the 86 functions; a function that calls the wrong one returns plausible numbers.", "anchors": ["wrappers/python/moordyn/moordyn.py:GetWavesKin", "wrappers/python/moordyn/moordyn.py:ExternalWaveKinGetN", "wrappers/python/moordyn/moordyn.py:GetLineNodeSeabedForce", "wrappers/python/moordyn/moordyn.py:IsLinePressBend", "wrappers/python/moordyn/moordyn.py:UseBodyVTK", "wrappers/python/moordyn/moordyn.py:SetWaveKin", "wrappers/python/moordyn/moordyn.py:GetWaveKinCoordinates", "wrappers/python/cmoordyn.cpp:PyMethodDef"]}
{"id": "C115", "title": "A call through the Fortran or Rust bindings is a call of the C function", "statement": "Calling a procedure of the Fortran module or of the Rust crate is calling the C function it stands for, with the values, variables and arrays the caller gives, and returns what that function returns.", "quantifier": "all procedures of both bindings, all arguments of the declared types, all libraries, memories and states", "why_tests_cant": "The compilers check nothing across the language boundary; a wrong declaration links, runs and reads garbage, and the tests of the wrappers call a few functions.", "anchors": ["wrappers/fortran/MoorDyn.f90:MD_SetVerbosity", "wrappers/fortran/MoorDyn.f90:MD_SetLogLevel", "wrappers/fortran/MoorDyn.f90:MD_GetWavesKin", "wrappers/fortran/MoorDyn.f90:MD_GetFASTtens", "wrappers/fortran/MoorDyn.f90:MD_Step", "source/MoorDyn2.h:MoorDyn_Step"]}
{"id": "C116", "title": "The Matlab functions answer what the C functions answer", "statement": "Each function of the Matlab wrapper hands the C function of the same name what the caller gives, returns what comes back, raises an error if the C function fails, and checks what it is given before it uses it.", "quantifier": "all functions of the wrapper, all Matlab arrays, all libraries and states", "why_tests_cant": "Matlab is not available to the continuous tests of the repository; there is no test of the wrapper.", "anchors": ["wrappers/matlab/moordyn_matlab.h:MOORDYNM_MEX_FUNCTION_BEGIN", "wrappers/matlab/MoorDynM_Save.cpp:MOORDYNM_MEX_FUNCTION_BEGIN", "wrappers/matlab/MoorDynM_Step.cpp:MOORDYNM_MEX_FUNCTION_BEGIN", "wrappers/matlab/MoorDynM_GetBodyM.cpp:MOORDYNM_MEX_FUNCTION_BEGIN", "wrappers/matlab/MoorDynM_Create.cpp:MexFunction"]}
{"id": "C117", "title": "The VTK files show the system as it is", "statement": "The files saved with MoorDyn_SaveVTK and the functions for single objects have the objects in a fixed order, each with its points where its nodes are and fields with a value for each node or segment; a model given to a body is drawn where the body is; a failure to read or write is reported by a code.", "quantifier": "all objects with any number of nodes, all positions and orientations, all names of files, all errors of the library VTK", "why_tests_cant": "The tests compare no file with the state it was written from, and they run no case with a field that does not fit.", "anchors": ["source/Line.cpp:Line::getVTK", "source/Rod.cpp:Rod::getVTK", "source/Point.cpp:Point::getVTK", "source/Body.cpp:Body::getVTK", "source/Body.cpp:MoorDyn_UseBodyVTK", "source/MoorDyn2.cpp:MoorDyn::getVTK", "source/IO.cpp:vtk_error", "source/Util/VTK_Util.hpp:vector_to_vtk_array"]}
{"id": "C118", "title": "A line changed through the API is the line described with the new values", "statement": "After MoorDyn_SetLineUnstretchedLength or MoorDyn_SetLineConstantEA a line has the forces, the masses and the stable time step of the line described with that length or stiffness in the input file; whatever is set, in any order, the getters answer the values given last and nothing else changes.", "quantifier": "all lines, numbers of segments, lengths, stiffnesses, pressures, waters and sequences of calls", "why_tests_cant": "Tests pay out a line and look at its tension; what is not updated (volumes, step limits) shows only in the inertia of the line and in the stability of later runs", "anchors": ["source/Line.hpp: Line::setUnstretchedLength, setConstantEA, enablePb", "source/Line.cpp: MoorDyn_SetLineUnstretchedLength, MoorDyn_SetLineConstantEA, MoorDyn_SetLinePressBend, MoorDyn_SetLinePressInt, Line::initialize"]}
{"id": "C119", "title": "Files are named after the input file and looked up beside it", "statement": "Every output file and the log file of a system lie in the directory of the input file and are named after it, with one ending per object so that no two objects share a file; the files of waves, currents and curves are looked for in the directory of the input file, unless a full path is given for them, and the input file is never overwritten.", "quantifier": "for all paths of input files, working directories, objects and companion files", "why_tests_cant": "paths have any number of dots and separators, and may lack a directory or an extension; tests always run with the same few paths", "anchors": ["source/MoorDyn2.cpp: moordyn::MoorDyn::MoorDyn, moordyn::MoorDyn::Init, moordyn::MoorDyn::ReadInFile", "source/Waves.cpp: Waves::setup", "source/MoorDyn2.hpp: read_curve", "source/Waves/WaveGrid.cpp"]}
{"id": "C120", "title": "Sizes reported first are the sizes written next", "statement": "Asking for the name of the time scheme or for the bytes of the system first without an array and then with an array of the reported size writes the name as a C string or the bytes, and nothing behind them; the bytes restore any system of the same layout, the reported name tells which scheme is in use, and setting the reported name sets that scheme.", "quantifier": "for all systems, time schemes, arrays and layouts", "why_tests_cant": "arrays of any size and content are handed over, and writing behind their end goes unnoticed by a test; names depend on the number of iterations", "anchors": ["source/MoorDyn2.cpp: MoorDyn_GetTimeScheme, MoorDyn_SetTimeScheme, MoorDyn_Serialize, MoorDyn_Deserialize", "source/Time.cpp: create_time_scheme", "source/MoorDyn2.h"]}
{"id": "C121", "title": "A spectrum has the height and the peak it is made with", "statement": "A Pierson-Moskowitz spectrum made with a significant height and a peak frequency has its peak there and the energy of that height, and the components made from a spectrum have its energy.", "quantifier": "for all heights, peak frequencies, frequencies, numbers of components and spectra", "why_tests_cant": "energy and peak are integrals and maxima over all frequencies", "anchors": ["source/Waves/WaveSpectrum.cpp: PMSpectrum::getSpectrum, ParametricSpectrum::getAmplitudes", "source/Waves/WaveSpectrum.hpp"]}
{"id": "C122", "title": "The file of wave frequencies is read as it is written", "statement": "A file of lines of three or four numbers gives one wave component per line, in order, with direction 0 where none is given; every other file is reported as an error.", "quantifier": "for all files and numbers", "why_tests_cant": "files have any number of lines, words and blanks, and wrong lines may be anywhere", "anchors": ["source/Waves/WaveSpectrum.cpp: spectrumFromFile", "source/Waves.cpp: Waves::setup", "source/Waves/WaveGrid.cpp: constructWaveGridSpectrumData"]}
{"id": "C123", "title": "The answers for the nodes of a line agree with each other", "statement": "In every state of a line the largest tension answered is not below the tension answered for any node, end B included; the force of the seabed answered for a node contains none of the bending force answered for it; the net force answered for a node is the sum of the pulls of the segments next to it and of the forces answered for the node. Queries without a line report an invalid value.", "quantifier": "all lines with at least one segment, all nodes, all tensions, bending forces and water kinematics", "why_tests_cant": "tests compare a query with a recorded number; they do not relate the answers of different queries to each other for all states of a line", "anchors": ["source/Line.cpp: MoorDyn_GetLineMaxTen, MoorDyn_GetLineFairTen, MoorDyn_GetLineNodeSeabedForce, MoorDyn_GetLineNodeForce", "source/Line.hpp: getNodeTen, getNodeSeabedForce", "source/Line.cpp: Line::getStateDeriv"]}
