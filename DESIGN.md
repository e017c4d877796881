# Formal model of MoorDyn (C++ sources in /repo/source)

## 1. Method

* The model is a set of Gallina files `rocq/theories/M*.v`, one per area of the code.
  Every definition carries a comment with the file and lines it models and any simplification.
* Proofs live in `rocq/theories/P*.v`; the property theorems are in `rocq/theories/T*.v`, which
  contain only theorem statements closed by a lemma or a short derivation, non-vacuity `Example`s and
  `Print Assumptions`.  Independent specifications are in `rocq/theories/S*.v` or stated inline.
* Reals (`double`) are modelled in one of three ways, stated in each file:
  - exact dyadics / IEEE bit patterns where the property is about bits (state files);
  - Flocq's binary64 format (FLT, round to nearest even) where the property is about rounding
    (termination of the substep loop, C25);
  - exact `R` where the property is about the algorithm.  There rounding is *not* modelled.
* C++ undefined behaviour (out-of-range `vector::operator[]`, conversions out of range, null pointers,
  division by zero, non-termination) is a distinct outcome (`UB`, `Diverges`) of the model, never a default.
* What the model does not describe (the C library's number parsing, the file system, the forces of
  objects in theorems about the integrator, ...) is a parameter of a Section: theorems hold for every value of it.
* A property that the code violates is recorded as a theorem `..._refuted` with a witness or with the
  exact value that the code gives; the part that does hold is proved as `..._partial`.

## 2. Plan and result per property

| id | what is modelled | how it is proved |
|----|------------------|------------------|
| C01 | `pack754`/`unpack754` over exact dyadics, integer part on `Z` with shifts and masks | normalisation loop invariant by induction on the exponent; bit-field lemmas |
| C02 | the same with special values; loop on fuel, `Diverges` if no fuel suffices | refuted: infinity never leaves the loop; subnormals come back different |
| C03 | every `Serialize`/`Deserialize` overload as functions to/from `list word` | algebraic law by induction on lists |
| C04 | `Save`/`Load` at byte level, endianness as a parameter of writer and reader | round trip on byte lists |
| C05 | `Load` decision sequence | case analysis for all byte lists; wrap mod 2^64 explicit (finding: header length 2^61+n accepted) |
| C06 | constructor `IO::IO` | decision rule, refuted outside (2,>=2),(>=3,>=2) |
| C07 | `Load` calls `Deserialize` before the length check | refuted with witness |
| C08 | records for Point, Body, Line, Rod, integrator and system | round trip composed from C03 |
| C09 | hidden fields added to the records | refuted per field; partial: saved fields are restored |
| C10 | `MOORDYN_THROW`, `MOORDYN_CATCHER` | exhaustive over the finite set; refuted for non-implemented |
| C11-C13 | string helpers over `list ascii` | induction on strings, independent relational spec |
| C14 | `interp_factor`, `lerp`, `interp`, `interp2` over `Q`/`R` | induction on the table with hint |
| C15,C16 | `Seafloor::setup`, `getDepthAt` | convexity of bilinear interpolation; mean refuted for incomplete files |
| C17 | `CFL` classes | induction on the children |
| C18 | `Add*/Remove*` of `TimeScheme` and `TimeSchemeBase` | invariant by induction over operations; removal refuted (shadowed index) |
| C19 | all `Step` functions on the pair (t, t_local) and derivative oracle | per scheme; Wilson refuted |
| C20,C21 | all explicit schemes on abstract states | algebra (`field`); AB history refuted |
| C22 | `StateVar` operators | componentwise; body/rod subtraction refuted |
| C23 | `create_time_scheme` | decision table over all strings; local AB refuted |
| C24,C25 | substep loop over `Q` and over `SpecFloat` | induction on ceil(dt/dtM); float termination refuted |
| C26 | DOF consumption in Init/Step/GetForces | induction on the coupled lists; pinned body refuted |
| C27,C28 | `updateFairlead`, `updateUnstretchedLength`, `Next`, `Update` | induction over the substeps |
| C29 | failure loop in `MoorDyn::Step` | refuted (inverted comparison); partial for executed-once |
| C30 | attachment lists, `addLine`/`removeLine`, `detachLines` | invariant by induction over operations |
| C31 | `AllOutput` gate with floor | arithmetic over `Q`, induction over the run |
| C32-C36 | 3x3/6x6 matrices over `R`/any ring | ring identities; `getH` sign and `mat62array` refuted |
| C37-C43 | line force assembly over `R` for any number of nodes | telescoping by induction; pointwise inequalities |
| C44,C45 | rod inertia and submergence | induction on N; refuted for the upside-down rod |
| C46 | `Point::doRHS` | fold over attachments |
| C47 | section reader on a list of lines with explicit `UB` on out-of-range access | refuted; partial for files that end in a section separator |
| C48 | `CdA` parsing | refuted for three and six values |
| C49,C50 | API state machines | invariant by induction over calls |
| C51 | `Log::Cout` | decision table |
| C52-C54 | wave grids and node enumeration | arithmetic; refuted at the wrap; list induction |
| C55 | `SetTimeScheme` | refuted (time lost); partial for registered objects |
| C56 | `SetCalcMask` | invariant over steps |
| C57 | `Relax`, `Mix` | real analysis of tanh bounds, algebra |
| C58 | `nX` bookkeeping | induction over objects |
| C59 | all schemes on any state arithmetic with zero derivatives | algebra per scheme; Newmark refuted for orientations |
| C60,C61 | `Quat2Euler`, `Euler2Quat`, `GetOrientationAngles` with `atan2` over `R` | trigonometric identities |
| C62 | orientation rates of bodies and rods | derivative of the rotation matrix of a quaternion |
| C63-C66 | node forces of a line | telescoping sums, power balance, derivative of the strain energy, also with stiffness and damping curves and with bends |
| C67-C70 | rods node by node | sums over the nodes by induction on the number of segments |
| C71 | lines and points together | sum over the attachments, exchange of sums |
| C72-C76 | points, rods and bodies assembled, in water or not | linear algebra of 6x6 matrices, existence of the inverse by positive definiteness |
| C77-C79 | implicit schemes | invariant over the inner iterations |
| C80,C81 | wave grids read at a position | affine maps of the water column, multilinear interpolation |
| C82,C83 | failures in `Step`, `detachLines`, Courant children | induction over the run |
| C84 | enumeration of nodes | index arithmetic over lists of objects |
| C85-C87 | `ReadInFile` | a scanner of sections over arbitrary lists of lines; case analysis with explicit `UB` |
| C88 | `GetOutput` of every object | decision tables |
| C89 | curvature and bending moments | trigonometry of circles, power balance against the angles; two motions of one line refute an energy of the shape |
| C90,C91 | `SpectrumKin`, `WaveNumber`, resampling | derivatives of the field, bounds with exponentials |
| C92 | kiss_fft and kiss_fftr | induction over the factors of the length |
| C93 | `fillWaveGrid` and the constructors of wave grids | the transform (C92) at every node, sampled field of C90 |
| C94 | constructors of current grids, `Waves::setup` adding them to waves | the tables are interpolations of the words of the file |
| C95 | `Catenary` (QSlines.hpp), `Line::initialize` | the returned nodes satisfy the static equations of a spec with its own definition of a line at rest |
| C96 | `Line::initialize`, internal damping from a fraction | the damping ratio of a two-mass mode |
| C97 | `icLegacy`, `icStationary`, the part of `Init` calling them | invariants of the loops over an abstract system |
| C98 | `Output` of lines, rods, bodies, the main file; who initializes what in `Init` | every text is parsed back into the specified table |
| C99 | `Waves::setup`, its two calls, queries, `updateWaves` | case analysis on all integers; the kept state is the specified flow |
| C100 | ends of lines at rods, `Rod::setDependentStates` | induction over the attachments; vector algebra; witnesses against the balance |
| C101 | forces and accelerations of lines, points, rods, bodies; whole runs of systems of lines and points (MSys) | equivariance of every function under horizontal isometries, then a relation kept by every scheme that evaluates all the objects, by induction over the calls (Anderson: given a test blind to the axes, which its own is not); rods and bodies only per evaluation |
| C102 | node forces of a line numbered from its other end | reversal of lists; witness for a line standing on the surface |
| C103 | whole runs of MSys, unconnected parts | a relation between the run of the whole and the run of a part, by induction over the steps; witness for the stationary scheme. If the whole runs then each part runs; the converse is not proved |
| C104 | whole runs of MSys, renumbered | the relation of C103 for a bijection of numbers |
| C105 | `Line::getFASTtens` | bounds of the mass matrix, equivariance of C101; witness for the axes |
| C106 | forces of the water on lines, rods, points, bodies (MLine, MRod, MBody) | closed forms for uniform flow by induction over the nodes, compared with Morison's equation written down separately |
| C107 | `Rod::updateFairlead`, `setState`, `getStateDeriv`, `getFnet`, `getNetForceAndMass` (MRodS) | the mass matrix from its energy, Newton's and Euler's equations of a uniform cylinder as the specification; an invariant of everything that can happen to a pinned rod |
| C108 | `Rod::setup`, `initialize`, `setState`, `setKinematics`, `Body::addRod`, Eigen's `FromTwoVectors` (MRodS) | the rotation between two vectors; closed form of the ends |
| C109 | `Body::updateFairlead`, `Rod::updateFairlead` (MRodS) | derivative of the rotation by three angles |
| C110 | `TimeSchemeBase::Update`, `CalcStateDeriv`, every function that moves bodies, rods, points and line ends, `MoorDyn::Step` (MFull) | facts about each object with the set of facts each operation may disturb; invariant through every scheme |
| C111 | the functions of cmoordyn.cpp (MPy): PyArg_ParseTuple, capsules, sequences, exceptions, the C code statement by statement, over any library | one monad with references, blocks and the exception that is set; case analysis on every value a Python program can pass |
| C112 | as C111 | the ledger of references and blocks before and after; induction over the calls for the growth |
| C113 | as C111, `close` | case analysis on the first argument; a closed system is absent |
| C114 | moordyn.py and the table of methods (MPyL), read from the source as tables | one lemma for all rows; the specification is the table of the documentation strings and the rule that the C function has the same name |
| C115 | the interface block and the module procedures of MoorDyn.f90, the externs of bindings.rs, the C prototypes (MBind), read from the sources as tables; a memory, passing by value and by reference, `c_loc`, `trim` and `//c_null_char` | one lemma for all rows whose declarations agree with the C prototype; each exception by case analysis on what the caller gives |
| C116 | moordyn_matlab.h and the 84 functions MoorDynM_*.cpp (MMex), 82 of them read from the sources as rows of a table, over any library | the specification is a table of the C prototypes with directions; case analysis on the functions, arrays and values arbitrary |
| C117 | the functions getVTK of lines, rods, points, bodies and systems, saveVTK, `MoorDyn_UseBodyVTK`, `vtk_error`, VTK_Util (MVtk); a polydata is what was put into it, readers and writers are oracles | induction over the nodes with an invariant for each array; Rodrigues' formula against the rotation matrix of the quaternion; block numbers by induction over the objects |
| C118 | the setters of lines, on lines as Line::setup and Line::initialize leave them (MSet), over the forces of MLine and the limits of MCFL | equality of every force but those of the volumes; induction over sequences of calls; closed form of the limit |
| C119 | the constructor's split of the input path with the arithmetic of std::size_t, the names of all files written and read (MPath); places are steps from the root (SPath) | induction over the path; separators and dots at any position; case split on the companions |
| C120 | `MoorDyn_GetTimeScheme`, `MoorDyn_Serialize`, `MoorDyn_Deserialize` on arrays of the caller, names of the schemes (MBuf) | lists of cells with writing behind the end undefined; case analysis over the schemes that can be created; C08 for restoring |
| C121 | `PMSpectrum::getSpectrum`, `ParametricSpectrum::getAmplitudes` (MPM) against the formula of the standard (SPM) | antiderivatives in closed form; the inequality ln v <= v - 1 for the peak; induction over the components |
| C122 | `spectrumFromFile` and the checks of its callers, from the characters of the file on (MFreq), `std::stod` any function | induction over the lines, with C11 and C12 for words and lines |
| C123 | `MoorDyn_GetLineMaxTen` (MQuery) on the node queries of MApi, and the data a line keeps after its forces are computed (MLine) | induction over the nodes, triangle inequality for the averaged tensions, algebra for the sums |

### Result

| id | title | status | theorems in | result |
|----|-------|--------|-------------|--------|
| C01 | Saved numbers survive the file encoding | proved | TPack.v | Proved for every normal double and zero: the stored word is the IEEE 754 bit pattern and reading it gives the number back; every word that is not a special pattern survives unpack and pack. |
| C02 | Saving terminates on every number | partial | TPack.v | REFUTED by the code: the normalisation loop never ends for infinity, NaN is stored as a finite number, subnormals are changed. Partial: large subnormals' stored word characterised. |
| C03 | Typed serialisation round-trips and consumes exactly its own words | proved | TIO.v | Proved for every overload, both byte orders, any list length. Numbers restricted to zero and normal doubles (see C02). |
| C04 | A saved file loads back on the same build | partial | TState.v | REFUTED by the code across byte orders: the length in the header is written in native order, so every non-empty file is rejected. Proved for equal byte order, whole system and any serialisable object. |
| C05 | Malformed state files are rejected | partial | TState.v | REFUTED by the code for a declared length of 2^61 words too many (size computed modulo 2^64). Proved for all other malformed headers; a successful load implies a well-formed file. |
| C06 | Files written by any build are loadable by that same build | partial | TExtC.v, TState.v | REFUTED by the code for builds with minor version below 2 or major below 2 (3.0 rejects its own files). Proved exact condition; holds for the 2.3 build of this commit. C06_own_files_refuted: every build with a major or minor version outside 2..255 rejects all its own files. |
| C07 | A rejected load leaves the simulation unchanged | partial | TState.v | REFUTED by the code: a length mismatch detected after reading leaves the simulation changed, or reads out of bounds. Proved: any file with a bad header leaves the object unchanged. |
| C08 | Every object restores the state it saved | proved | TState.v | Proved for points, bodies, lines, rods, integrator and whole system; numbers are zero or normal doubles. |
| C09 | Load resumes the simulation that was saved | partial | TState.v | REFUTED by the code: unstretched length, executed failures and body accelerations are not in the file. Proved: all saved fields are restored, all others keep their value before the load. |
| C10 | Errors keep their code through the C API | partial | TErr.v | REFUTED by the code for MOORDYN_NON_IMPLEMENTED (-7): MOORDYN_THROW turns it into an exception that MOORDYN_CATCHER has no clause for, so it escapes through the C API. Proved for all other documented codes; undocumented codes are reported as -255. |
| C11 | Splitting a line of input yields its words | partial | TStr.v | Proved for the single separator split. The line splitter used for input files picks tab or space per line: proved for lines with one kind of blank, REFUTED when tabs and spaces are mixed on one line (columns are glued together). |
| C12 | Trailing blanks are removed and nothing else | proved | TStr.v | rtrim characterised completely and uniquely; fileToLines reads CRLF files as LF files. |
| C13 | Output channel names decompose into letters and numbers | proved | TStr.v | Group decomposition for every name of the documented shape; return value. |
| C14 | Tabulated data is interpolated linearly and never extrapolated | partial | TInterp.v | Scalar interpolation proved for every strictly increasing table, query and admissible hint. REFUTED by the code only for the vector version with unordered queries or a one-entry table. |
| C15 | Sea floor depth is bounded by the table | partial | TInterp.v | Proved for files that give every grid point: bounds, bilinear interpolation, exact at grid points, constant outside. REFUTED by the code for incomplete files: missing grid points silently have depth 0. |
| C16 | The average depth is the mean of the grid depths | partial | TInterp.v | Proved when no grid point is given twice. REFUTED by the code otherwise: repeated entries are counted twice. |
| C17 | The time step obtained from a CFL factor is stable for every object | proved | TInterp.v | Proved for every tree of objects, over exact reals; the largest double is a constant of the model. SetDt/SetCFL do not pass the factor on to the integrator (see DESIGN). |
| C18 | The integrator keeps one state slot per object | partial | TExtB.v, TTime.v | REFUTED by the code for removals: the inner loop index hides the index of the removed object (source/Time.hpp Remove*), so the wrong entries are erased, and out of bounds when there are fewer objects than states; proved for every sequence of additions and for the error cases C18_remove_entries_refuted: a removal is right only in the array whose number is the position of the removed object; C18_every_removal_refuted: with two arrays or more every successful removal leaves a wrong entry. |
| C19 | One integrator step advances time by the step | partial | TScheme.v | Proved for every scheme except Wilson, for all state types, operators and object behaviours. REFUTED by the code for the Wilson scheme, which adds theta*dt and then adds (theta-1)*dt again (Time.cpp l.776, l.795), so t advances 1.74 dt with theta = 1.37. |
| C20 | Explicit schemes reach their order on polynomial motion | partial | TScheme.v | Euler, RK2, RK4 proved to be the textbook methods on any differential equation and exact on polynomials; also exact for constant / quadratic acceleration and Taylor polynomials on the linear test equation. REFUTED by the code for Heun: the new derivative is evaluated at the start time of the step, so its increments lag one step. |
| C21 | Adams-Bashforth schemes use the previous derivatives | partial | TScheme.v | REFUTED by the code: ABScheme::shift copies upwards, so all kept derivatives equal the previous one, and MoorDynState::operator- adds for rods and bodies. The weights really applied are proved for every history; constant derivatives are exact for lines and points only; linear ones only on the second step. |
| C22 | State arithmetic is componentwise | partial | TScheme.v | Proved for sums, scalings, derivative sums and differences, and for state differences without rods and bodies. REFUTED by the code for state differences of rods and bodies (operator- adds, State.cpp) and for Mix with mismatched sizes (no check). |
| C23 | Requested time scheme is the one created | partial | TTime.v | REFUTED by the code for lab2-lab4 (created as global schemes) and for malformed counts (negative, trailing text, out of range); proved for all other documented names in any capitalisation and every decimal count below 2^31 |
| C24 | A coupling step is cut into substeps that add up exactly | proved | TStep.v | Exact real arithmetic (doubles: C25). The list of substeps is characterised (sum, bounds, all but the last equal to dtM, number = dt/dtM rounded up) and the integrator is shown to be driven by exactly this list. Finding: SetDt accepts dtM <= 0, for which Step never returns. |
| C25 | A coupling step always terminates in floating point | partial | TStepF.v | Proved: for every coupling step dt and model step dtM with dt <= 2^52 dtM the substep loop in IEEE double arithmetic (Flocq FLT, round to nearest even) ends. REFUTED in general: a positive dtM below dt * 2^-54 leaves the loop counter unchanged, so the call never returns (witness dtM = 1, dt = 2^55). The real-number loop is the one used by the other step theorems. |
| C26 | Coupled objects consume the announced degrees of freedom | partial | TStep.v | REFUTED by the code for pinned coupled bodies: NCoupledDOF counts them with 6 while Init, Step and GetForces use 3; the exact excess is proved. Layout, order and single use of every entry proved for all systems. |
| C27 | Coupled points land on the prescribed position | proved | TStep.v | All coupled bodies, rods and points, every scheme (implicit ones with positive dt factor, Wilson with theta > 0), every substepping, both at the end and inside the step. Angles of coupled bodies are the six numbers given to XYZQuat::fromVec6; the conversion to a quaternion is not part of this statement. |
| C28 | Line pay-out follows the prescribed rate | proved | TStep.v | Every scheme, every sequence of coupling steps, all lines at once; exact reals. |
| C29 | Lines fail when and only when their failure time has come | partial | TStep.v | REFUTED by the code: the comparison in Step is inverted (failure->time < t is skipped), so every failure lying in the future is executed at the end of the first step and failures whose time has passed never are. Exact characterisation over runs proved; at-most-once holds. |
| C30 | Line attachments stay consistent | partial | TDetach.v, TSwitch.v | Proved for attachments read from the file and for every history of motions and failures, errors included (C30_read, C30_history, C30_detach, C30_detach_error, C30_kinematics). REFUTED by the code: a detachment that stops with an error leaves the lines moved before it on a new point at the origin (C30_failed_detach_refuted); the new point is never integrated, so the detached ends stay where they are for ever (C30_detached_point_frozen_refuted). |
| C31 | Output rows are written once per output interval | partial | TStep.v | Row gate and coverage proved; REFUTED for the row at t = 0 that Init asks for: AllOutput(0, 0) writes nothing if dtOut > 0. |
| C32 | Moving a mass keeps its kinetic energy | proved | TMat.v | Energy, symmetry, composition, zero displacement, non-negativity, and bodies assembled from any number of particles; exact reals. |
| C33 | Rotating a mass keeps its kinetic energy | proved | TMat.v | 6x6 and 3x3 rotation; orthogonal means both Q^T Q = I and Q Q^T = I; exact reals. |
| C34 | Points of a rigid body move rigidly | proved | TMat.v | C34_rigid_motion, C34_reference_point and C34_velocity (the velocity of a point is the rate of its position for every differentiable motion). |
| C35 | Documented cross product matrix | partial | TMat.v | REFUTED by the code: the matrix multiplied by a gives a x r, the documentation says r x a. Proved: it is a x r, its transpose is r x a (the callers use it consistently, see C32). |
| C36 | Mass and matrices are handed out completely through the C API | partial | TMat.v | REFUTED by the code: mat62array copies only three rows, so MoorDyn_GetBodyM and MoorDyn_GetRodM leave rows 3 to 5 of the caller's array untouched. Proved: rows 0 to 2 are right, the others keep their previous content. |
| C37 | Internal line forces cancel | proved | TLine.v | Line::getStateDeriv node by node over reals, any number of segments; sums of internal forces, node masses and weights. Lines whose curve gives NaN have no forces (line_forces = None). |
| C38 | A line never pushes | proved | TLine.v | Linear stiffness: slack segments carry nothing, taut ones EA*strain along the segment, for segments longer than the tolerance 50*2^-52 of unitvector (shorter ones are not normalised). |
| C39 | Drag dissipates | proved | TBody.v, TLine.v, TRod.v | Lines and rods: drag power against the relative velocity is never positive. |
| C40 | Sea bed friction is bounded and opposes sliding | partial | TExt.v, TLine.v | REFUTED by the code: the damping term makes the sea bed pull a node that leaves it fast. Proved: friction bounded by max(1,statDynFricScale)*mu*\|Bz\|, non-positive power, upward force unless the node moves up, no contact force above the bed. C40_pulls_exactly_partial and C40_leaving_refuted: exactly when the bed pulls; with positive stiffness and damping it pulls every node that leaves it. |
| C41 | Submerged fraction of a segment | partial | TLine.v | REFUTED by the code: a segment whose first end is exactly on the surface and whose second is above counts as fully submerged when vertical (0 in the other order); and for every positive diameter the fraction jumps from 1 to a value bounded away from 1 when the end of an inclined segment leaves the water. Proved: range, both-below, both-above, thin-line value, the value for every thickness (share of the diagonal between the corners), order independence when no end is on the surface. |
| C42 | Nonlinear curves read from file are used as given | partial | TLine.v | REFUTED by the code: both columns are filled from the first, a file ending in a newline is refused, a one-sided damping curve gives an even force, a damping curve gives NaN when a segment keeps its length. Proved: abscissae, number of points, tension and two-sided damping follow the curve. |
| C43 | Line tension queries are consistent | partial | TLine.v | REFUTED by the code: maximum tension omits the last node, constant-stiffness query inverted, sea bed query adds the bending force. Proved: maximum over the other nodes, fairlead tension, set/get stiffness. |
| C44 | Rod inertia is that of a cylinder | partial | TRod.v | REFUTED by the code for rods of 65536 or more segments (unsigned 6*N*N wraps to 0); the inertia of a uniform cylinder and positive definiteness are proved for fewer segments (N < 26755). |
| C45 | Rod submergence does not depend on its orientation | partial | TRod.v | REFUTED by the code: an upside-down rod (end B below end A) in air is reported fully submerged and a rod whose upper end touches the surface is reported dry; proved for rods with end A below end B away from that case. |
| C46 | Point force balance | proved | TBody.v | Net force and mass of a point are the sums over its attached ends and its own terms, do not depend on the order of attachment, an unknown end is rejected with invalid value, and a free point has exactly one acceleration satisfying Newton's second law. |
| C47 | Input sections are read without leaving the file | partial | TParse.v | REFUTED by the code: every section loop reads a line before it checks that the line is in the file, so a file whose options are not followed by a line of dashes makes it read beyond the end (C47_options_refuted in general, C47_refuted for one file). Proved when every section is followed by such a line. |
| C48 | Body drag coefficients are read for all axes | partial | TParse.v | REFUTED by the code: of three or six CdA values the first is lost (the fill starts at index 1). Proved for one and two values. |
| C49 | Legacy singleton API | partial | TApi.v | REFUTED in two places: an initialisation that fails after the system was created leaves it allocated for ever (C49_one_live_refuted; C49_one_system_partial counts the systems exactly), and the tension of a line that does not exist is read from an uninitialised variable (C49_invalid_line_refuted). The rest is proved for every history of MoorDynInit, MoorDynStep and MoorDynClose. |
| C50 | Object getters accept exactly the valid identifiers | proved | TApi.v | Getters of bodies, rods, points and lines, node queries of lines, attachments of points and GetFASTtens. The remaining object queries (rods, bodies, sea floor) start with the same NULL check but their bodies are not modelled; built without VTK the SaveVTK functions return NON_IMPLEMENTED also for NULL. |
| C51 | Log messages reach exactly the configured sinks | proved | TLog.v | For every history of the log functions of the C interface. A log file that cannot be created makes MoorDyn_SetLogFile throw across the C interface, and leaves the former file closed while its path is still reported. |
| C52 | Wave time series are sampled at the right instants | partial | TWaves.v | REFUTED by the code in the last interval of every period: the index is wrapped before its lower neighbour is taken, so from the instant of the last sample until the end of the period the first sample is returned (C52_*_last_interval_refuted). Proved everywhere else, and for steady grids at all times. Times above (2^32-1) samples and negative times are not covered (the latter is an undefined conversion). |
| C53 | Grid axes | proved | TWaves.v | Proved for n >= 2. A lattice of one point yields two coordinates and a lattice of none a 2^32 point one; these lie outside of the claim. |
| C54 | External wave kinematics go to the node they were given for | partial | TNodes.v | C54_same_order (a numbering of all nodes shared by the coordinates query and the set call), C54_with_currents, C54_too_few, C54_different_numbers, C54_interface, C54_tables. REFUTED in part: more entries than nodes are accepted and the rest is ignored, while the documentation promises an error (C54_too_many_refuted). |
| C55 | Switching the time scheme keeps the simulated time | partial | TSwitch.v | Proved: objects, integrated state and CFL factor are kept and shown by the next update (C55_state_partial); an unknown name changes nothing (C55_unknown_name). REFUTED by the code: the time goes back to 0 (C55_time_refuted), the objects show their initial shape until the next step (C55_shape_refuted), after a failure the next step reads beyond the state (C55_after_failure_refuted), and waves and currents keep using the deleted integrator (C55_waves_refuted). The initialize functions of the objects are arbitrary. |
| C56 | Local time steps never starve an object | proved | TTime.v | the held derivative of a line is never used for a total time of 0.999 times its stable step or more |
| C57 | Relaxation of implicit schemes | partial | TExt.v, TScheme.v | Factor in [0,1) proved for all schemes but Newmark, last inner iteration unrelaxed, fixed points preserved by Mix. REFUTED by the code for the Newmark scheme (c0 + c1 = 1.05: the factor exceeds 1 for 40 iterations, i.e. over-relaxation with a negative weight of the new derivative). C57_newmark_overshoots_refuted: the Newmark factor exceeds 1 in the first twentieth of the iterations of every scheme with 40 or more; C57_newmark_range_partial: it stays below 1.05, and below 1 with at most six iterations. |
| C58 | Output header and state vector bookkeeping | partial | TParse.v | REFUTED by the code: a free or pinned body or rod counts as 12 or 6 while the integrated state has a quaternion (13), see C58_refuted. Proved: the count is twice the number of degrees of freedom modulo 2^32. The header of the output file is covered by other properties. |
| C59 | Equilibria are fixed points of the time schemes | partial | TScheme.v, TSchemeNm.v | Proved for Euler, RK2, RK4, Heun, Adams-Bashforth, implicit Euler and Anderson. REFUTED by the code for the Newmark scheme with a body of non-identity orientation: Newmark adds the unit quaternion of XYZQuat::fromVec6(0) to the orientation rate (State.cpp). Wilson and the stationary scheme use the same formula but are not covered by a theorem here. |
| C60 | Orientation angles and internal orientation agree | proved | TMat.v | Exact reals; atan2 without signed zeros. Set-then-read is proved for pitch strictly inside (-pi/2, pi/2), at +-pi/2 the rotation is still the same (reported_angles). |
| C61 | Inclination and heading of a direction | proved | TMat.v | Exact reals; heading of directions within 1e-6 of vertical is 0 by definition, there only the inclination part is claimed. |
| C62 | The orientation of a rigid object follows its angular velocity | partial | TMat.v | Proved for bodies and rods with at least one segment. REFUTED for a free zero-length rod: its orientation rate is the identity quaternion instead of zero, so it drifts. |
| C63 | Internal line forces exert no moment | partial | TEnd.v, TEndM.v, TLine.v, TShort.v | Proved without exception for force and for pinned ends; C63_clamped_moment and C63_clamped_curve give the moment of the forces of a line with clamped ends, with a bending stiffness and with a bending curve: that of the bends at the clamps. REFUTED for lines with bending stiffness and a segment of positive length below the tolerance of the code (1e-14): its direction is not made a unit vector and the bend has a moment. |
| C64 | Line nodes obey Newton's second law | proved | TLine.v | For N >= 1, positive diameter, density, lengths and non-negative coefficients. |
| C65 | Internal damping only dissipates | partial | TExtC.v, TLine.v, TLineD.v | Constant damping and two-sided damping curves proved, with the exact loss of each segment; one-sided damping curves add energy (refuted). C65_one_sided_power_partial and C65_shortening_driven_refuted: the power of the damping for one-sided curves, and that every shortening segment is driven where the curve is positive. |
| C66 | Lines conserve energy apart from damping | partial | TBendC.v, TBendU.v, TLine.v, TLineU.v | Constants or curves for stiffness, damping and bending, with pinned ends or clamps that do not turn; every stiffness curve which starts without stress stores energy, and the constant modulus gives the spring energy. Segments and bends above the tolerances. Missing: clamps that turn, and bends below the tolerances. |
| C67 | Rods float as Archimedes says | partial | TRod.v | REFUTED by the code for small immersions (buoyancy is scaled by the wet fraction of half a segment); Archimedes' force and moment are proved for submerged rods. |
| C68 | The centre of mass of a free rod obeys Newton's second law | partial | TRod.v | REFUTED by the code: the centripetal terms are left out, so a spinning rod does not fall with its centre of mass; proved for rods without angular velocity. |
| C69 | Rod nodes are rigid | proved | TRod.v | Equal spacing, total length, rigid velocities and the heading and inclination angles. |
| C70 | The submerged fraction of a rod node is a fraction | partial | TRod.v | REFUTED by the code: an almost vertical rod (\|sin\| of the inclination under 0.001, not zero) with a node within its own small disc of the surface gets a fraction above one; proved non-negative always and at most one otherwise. |
| C71 | Newton's third law across the system | proved | TBody.v | For arbitrary systems of lines and points (bending-free or not, whatever line_forces computes), under the hypothesis that every line end is attached to exactly one point. |
| C72 | Linear momentum of bodies | partial | TBody.v, TBodyW.v | Proved for points, rods, the coupled reaction, and for free and pinned bodies in water or not (C72_body_in_water, C72_pinned_in_water): there the mass of water is given the centripetal acceleration of the centre of gravity. REFUTED by the code in consequence: momentum with the water at the reference point, C72_water_refuted; without water C72_free_body_partial and C72_pinned_reaction. |
| C73 | Angular momentum of bodies | partial | TBody.v | REFUTED by the code: the gyroscopic term w x (I w) is missing from Body::doRHS; the theorem gives the exact spurious rate of angular momentum, with a witness; the claim holds for bodies that do not rotate. |
| C74 | What is handed to a body acts where it acts | partial | TBody.v | REFUTED by the code for rotating bodies: the centripetal force of attached points (and rods) is subtracted from the force but its moment is not. Proved when the body does not rotate. |
| C75 | A free body has one acceleration | proved | TBody.v | Symmetry, positive definiteness, energy, existence and uniqueness of the acceleration for every list of parts with symmetric non-negative masses. |
| C76 | Water acts only on what is in it | partial | TBody.v | REFUTED by the code: Point::doRHS and Body::doRHS never look at the free surface; a light point above the water is pushed upwards by buoyancy. |
| C77 | The implicit Newmark scheme is the Newmark method | partial | TSchemeNm.v | Method, exactness for uniform acceleration and energy of converged steps proved for any iteration count. REFUTED by the code: the rates kept for the next step are those of the last iterate, not of the new state; the exact difference for one iteration is given. |
| C78 | The implicit Wilson scheme integrates free fall exactly | partial | TSchemeNm.v | REFUTED by the code: the position is advanced by theta * a dt^2 / 2 (State.cpp uses the extended step where the actual one is needed); exact value proved for one iteration. |
| C79 | The step factor of the stationary solver is controlled | proved | TSchemeNm.v | For every state arithmetic and every behaviour of the objects. |
| C80 | Wave kinematics follow the water column | proved | TWaves.v | The theorems speak of the result of wave_kin through wave_at, which the C52 theorems establish for wave_kin. |
| C81 | Gridded data are reproduced | proved | TWaves.v | Nodes, bounds, affine exactness and absence of out of range accesses; the velocity of waves at a node depends on the stretched depth, see C80. |
| C82 | Failures happen at their time | partial | TDetach.v | REFUTED by the code: the test in Step is inverted, so a failure happens in the first step that ends not later than its time (C82_too_early_refuted), and one whose time is over never happens (C82_never_refuted). Proved: what happens exactly, and at most once (C82_when_partial, C82_once). The tension criterion is read but never used. |
| C83 | Detaching keeps the time step restriction | partial | TDetach.v | REFUTED by the code for a line with both ends at one point or rod: removing one child removes both (C83_both_ends_refuted). Proved for all other lines (C83_other_lines_partial). |
| C84 | Each node sees the waves and currents of its own position | proved | TNodes.v | C84_sum, C84_waves_only, C84_currents_only (elevation and pressure keep their old values then), C84_none. |
| C85 | Malformed input is reported as an error | partial | TParse.v | REFUTED by the code: a rod row with too few fields leaves a null pointer that is dereferenced, a failure row with four fields reads a fifth, the tension of a line that does not exist indexes beyond the list (undefined behaviour), and a wrong value of WaveKin lets a standard exception escape from MoorDyn_Create. Proved for files without rods, failures and outputs and without the options whose values are parsed with exceptions. |
| C86 | The system is the one described by the tables of the file | partial | TParse.v | References and tables are proved for every accepted file. REFUTED for the numbers in the first column: they are not used nor checked, references go by row (C86_numbers_refuted). |
| C87 | Only the sections of the file matter | partial | TParse.v | Order and surrounding text are proved irrelevant. REFUTED for titles: a line with dashes and one of the keywords anywhere before is taken for the header (C87_title_refuted), and a second section of the same kind is ignored (C87_second_section_refuted). |
| C88 | Output channels report the quantity they name | partial | TChan.v | Proved for all documented channels of lines, points, rods and bodies except the net force of coupled bodies. REFUTED by the code in four places: BODYnTEN of a coupled body omits the inertial term that BODYnFX/FY/FZ include; a channel of an object or node that does not exist reads out of bounds; the names ConN.. documented for the first format make no channel; FAIRTENn (net force at the last node) differs from MoorDyn_GetLineFairTen (tension of the last segment). |
| C89 | Bending stiffness follows the curvature of the line | partial | TBend.v, TBendC.v, TBendU.v | Exact on circles at inner nodes; at a clamped end the curvature carries the factor 1/cos(theta/4). In every motion the power is that of the moments against the changes of the angles, also with bending curves (C89_power_partial) and at clamps that do not turn (C89_clamped_power_partial); without stretching it is what the bending energy loses (C89_energy_partial). REFUTED with stretching: no energy of the shape has this power, since the moment depends on the stretched lengths but only the angles do work. Missing: clamps that turn, and bends below the tolerances. |
| C90 | Waves summed over components are linear waves | partial | TSpec.v | Proved over the mean water column (divergence, curl, surface, time derivative, bottom). REFUTED by the code: at a fixed position the acceleration omits the motion of the stretched column, and the dynamic pressure is always 0. Dispersion: proved for omega^2 h > 4.8 g only. |
| C91 | Resampling a spectrum keeps it | partial | TSpecB.v | Proved: even resampling, evenly spaced spectra kept, descending rejected. REFUTED by the code: the last component is lost when its frequency is not a multiple of the smallest spacing. |
| C92 | The Fourier transforms behind the wave grids are the discrete transforms, for every number of samples | proved | TFFT.v | kiss_fft.cpp and kiss_fftr.cpp modelled statement by statement over the reals, by induction over the list of factors; rounding errors and the OpenMP variant are not modelled; n = 0 is outside of the domain (the callers never use it with well-formed files). |
| C93 | A wave grid holds the waves of the file it is made from | partial | TFill.v | REFUTED by the code in three respects: the mean and the highest component of a spectrum come with half amplitude (C93_mean_halved_refuted), the grid shows the real part where the sum of components shows the imaginary part, so the same file means waves a quarter period apart (C93_modes_disagree_refuted), and components of a record above 0.5 Hz are dropped (C93_fast_waves_refuted). Proved: everything else, for all spectra and records (C93_spectrum_grid_partial, C93_spectrum_grid, C93_elevation_grid_partial): the tables are samples of one field satisfying the linear wave equations, with bounded error of dispersion in deep water as in C90. Reading of the files (text) and rounding are not part of the model. |
| C94 | Currents described in files | partial | TCur.v | REFUTED in parts by the code: depths in descending order are accepted and only the first row is used (C94_descending_refuted); from the last time of a dynamic profile on the velocities of the first time come back (C94_dynamic_end_refuted) and no acceleration is derived (C94_dynamic_acceleration_refuted); the first data line of a 4D file in the documented layout is skipped (C94_4d_first_line_refuted) and words not spelt as in the axis, like -0 in the documentation's own example, are taken for the first node (C94_4d_unknown_word_refuted). Proved: increasing depths (C94_steady_partial), samples and flow of dynamic profiles with even times (C94_dynamic_samples, C94_dynamic_flow_partial), the table of 4D files (C94_4d_table, C94_4d_partial), short files, and the sum of waves and currents on one grid (C94_unify). |
| C95 | Lines start in static equilibrium | proved | TCat.v | Catenary of QSlines.hpp and Line::initialize modelled over the reals. C95_static: whatever is returned is a sampled static line (hanging, grounded with friction, loose), also when turned round. C95_closes: what acceptance of the Newton iteration means for the end point (to first order, and only if accepted before the last iteration: there the damping factor 1 - Tol*I is zero and everything is accepted). C95_hangs: the routine never reports a failure without a sea bed; C95_step: the determinant is positive. C95_line, C95_anchor: the positions after initialization. Findings in DESIGN.md. |
| C96 | A negative damping coefficient is a fraction of critical damping | proved | TCat.v | Damping ratio of the mode in which neighbouring nodes move against each other, as in docs/troubleshooting.rst. |
| C97 | The initial condition generation ends, leaves drag and clock as given, and hands over a converged state | partial | TIC.v | REFUTED by the code in three points. dtIC is divided by ten twice, so convergence is checked over 9/100 of dtIC and can be accepted after dtIC/10 of simulation (C97_period_refuted, with a line whose tension changes by ten times threshIC in dtIC); the message says converged although nothing was compared when TmaxIC is not positive (C97_report_refuted); the static solver accepts any residual that does not change (C97_static_refuted). Proved: both loops end, time bounds, what converged means over the shorter period, drag restored (CdScaleIC not zero), clock zero. The mooring system and its time scheme are a parameter. |
| C98 | Output files are complete tables with the right columns | partial | TOut.v | REFUTED by the code in two places: bodies of type COUPLED and FIXED get a file of rows without names and units (C98_body_refuted; C98_body_partial says exactly what the files hold), and the flags U, D, t, c, s, d of rods, listed in the documents, give a file with the time column only (C98_rod_flags_refuted). The rest is proved: lines, rods, the main file, and what is left behind by a failing channel. The formatting of a number is a parameter, of which only that it gives a word without blanks is used; that every FIXED rod has exactly one host is a hypothesis (what the reading of the input provides). |
| C99 | WaveKin and Currents give the flow they are documented to give | partial | TSetup.v | REFUTED by the code in part: options documented as not implemented (WaveKin 5 and 6, Currents 3 and 4) are accepted by a build without assertions and give still water (a build with assertions ends the program); after an unreadable file the water depth of the environment stays that of the sea floor file; the elevation asked for without waves reads a null pointer. Proved: C99_documented and C99_nodes and C99_external give the flow of the documented options for all files; C99_files that the files are needed; C99_others decides all other integers. The contents of grids are oracles here (modelled for C52, C67, C89-C95). |
| C100 | Lines clamped to rods exchange bending moments with them | partial | TEnd.v | REFUTED by the code in part: the moment at a clamped end is applied to the line and to nothing else (the end moments handed to rods are zero from initialization on); the direction of a rod without length balances moments proportional to the sine of the angle, not those of the code (2 sin(angle/2)), so unlike lines leave a moment on the joint; lines with a curve of bending moments give such a rod no direction (0/0). Proved: kinematics, clamps and directions of all attached ends; the balance in the sine law; the factor between the two laws; the balance for one line, two equal lines, equal angles. |
| C101 | The direction of the horizontal axes does not matter | partial | TFrame.v | Proved for lines, points, rods (except those less than a millionth off the vertical, which lose their heading), bodies (turns and shifts), and whole simulations of lines and points with any scheme that updates all objects. REFUTED by the code for the stopping test of the Anderson scheme, which averages absolute components. Simulations with rods and bodies: only the forces of each object are proved, not the whole run. |
| C102 | A line may be described from either end | partial | TFrame.v | REFUTED by the code when a node lies exactly at the level of the water over its segment: a line standing on the surface is wholly submerged from one end and dry from the other. Proved in all other positions; the tensions always agree. |
| C103 | Unconnected mooring systems do not affect each other | partial | TPart.v | Proved for systems of lines and points and the time schemes that treat objects one by one. C103_stationary_refuted: the stationary scheme takes one step for all objects from the sum of their errors (also the Anderson scheme, and the masks of the local schemes, are outside C103_part). |
| C104 | The order in which lines and points are listed does not matter | proved | TPart.v | Renumbered systems are parts of each other; same schemes as C103. Failed runs are not compared by their error. |
| C105 | The tensions reported for FAST are the forces of the lines at their ends | partial | TFast.v | The horizontal parts are proved (C105_horizontal). REFUTED by the code for the vertical parts: an entry of the mass matrix, with the added mass, times gravity is subtracted from a force that has the weight already (C105_vertical_refuted for every line, C105_weight_twice exact in air), and that entry changes when the system is turned about the vertical (C105_axes_refuted). |
| C106 | Drag, added mass and fluid inertia follow Morison's equation | partial | TMor.v | Proved for straight lines and for rods in uniform flow (forces, moments and masses) and for the drag of bodies. That neutral objects move with accelerating water is proved for slack lines of any shape and for rods, and refuted for points and bodies: Point::doRHS and Body::doRHS read the acceleration of the water and do not use it. |
| C107 | A pin transmits force but no moment, and carries the motion of its holder | partial | TPin.v | C107_vessel_turns_partial: a coupled-pinned rod in vacuum turning across its axis gets the angular acceleration of a hinged uniform cylinder whose hinge has the acceleration of the vessel (through updateFairlead and setState); C107_solvable: such an acceleration exists. C107_spin_refuted: with spin about its axis the gyroscopic moment is missing (exact difference). C107_vessel_force_refuted: force at the hinge lacks the centripetal part, moment is zero as it should be; right if the rod does not turn (C107_vessel_force_partial). C107_clamped_refuted: the same for coupled rods. C107_body_moment_refuted: rods pinned to bodies hand over the wrench of a clamped rod. C107_falling_refuted: over every history of a pinned rod its pin counts as unaccelerated. Missing: the same with water. |
| C108 | Rods start where the input file puts them | partial | TRodS.v | C108_fixed: rods fixed to bodies lie where the body carries both ends, at every update. C108_free_start_refuted, C108_vessel_pin_refuted: after Init the rod points along the vector from the origin to B, with the exact condition when this is right, and the attached lines with it; C108_first_update_partial: from the first update on it lies from A to B. C108_pinned_refuted: a rod pinned to a turned body starts in the direction of the global frame. |
| C109 | Velocities of coupled bodies and rods are the derivatives of their positions | partial | TRate.v | C109_attached_point_refuted and C109_rod_refuted give the true derivative, the velocity given, and exactly when they agree; C109_attached_point_partial: they agree for a level body and for pure roll rates. |
| C110 | After every step everything attached is where its holder is and moves with it | proved | TFull.v | Model of whole systems (MFull) with every kind of body, rod and point and all eleven time schemes. In place means: points and ends of rods at the place of their carrier with its rigid velocity, fixed rods turned with it (unless turned round by a half turn, C108), rods straight and along their orientation, ends of lines at their holders, free or clamped; follows means: coupled objects extrapolated from the caller's values, free ones at the state. C110_update: one Update from any moment; C110_total: it succeeds when the state has an entry for each object and rods have segments; C110_boundary: the caller's values reach the right object and disturb nothing; C110_step, C110_coupling, C110_run: every scheme, every number of steps. Forces and derivatives are an arbitrary function (deriv), so are the time step limit (lim) and the convergence test (conv). Assumed: the input is well formed (every line end has one holder, each fixed object one carrier), and bodies of type FIXED were in place at the start (they are placed by Init only and never updated again). |
| C111 | A Python call hands over what it is given and ends properly | partial | TPy.v | Answers proved for every value passed to step, init, ext_wave_set, line_set_pint and the 73 functions with plain arguments; absence of crashes for every argument and malloc, except for deserialize and for waves_getkin with four arguments, for which it is refuted (SystemError, read past the bytes, uninitialised pointer). line_set_pbend(False) may switch pressure bending on (format b into an int). The library and the interpreter's conversions are parameters. |
| C112 | A Python call leaves nothing behind | partial | TPy.v | Exact count of what step, init and ext_wave_set leave; the other functions leave nothing. Refuted: each wrong-length call of step leaves a reference, so n calls leave n; get_fast_tens leaves four blocks on error; functions returning None give away a reference to None they do not hold (harmless from Python 3.12 on, where None is immortal). Missing: what line_set_pint and deserialize leave is not counted. |
| C113 | Python handles are checked | partial | TPy.v | Wrong handles and close proved for all functions that take a handle; refuted for handles that outlive their system: undefined behaviour instead of an exception. |
| C114 | The Python functions do what they are documented to do | partial | TPyL.v | 61 of the 66 functions with one handle and plain arguments proved, and the getters of objects, Step, Init, Init_NoIC, GetWaveKinCoordinates, SetWaveKin, Log. Refuted: GetWavesKin (always TypeError: six arguments for five), ExternalWaveKinGetN (calls the initialisation, returns 0), GetLineNodeSeabedForce (returns the Froude-Krylov force), IsLinePressBend (NameError), UseBodyVTK (AttributeError), ExternalWaveKinInit (raises instead of returning the code). Keyword arguments are not modelled. |
| C115 | A call through the Fortran or Rust bindings is a call of the C function | partial | TBind.v | Every procedure of the Fortran module and of the Rust crate passes what the caller gives to the C function it stands for, and returns its answer, for every library and memory, with these exceptions, which are refuted: eight Fortran procedures that do not link, pass addresses for numbers, doubles for floats or an argument too many; sections of arrays with gaps; GetWavesKin of the Rust crate, which lacks a parameter. |
| C116 | The Matlab functions answer what the C functions answer | partial | TMex.v | For every function of the wrapper whose inputs are as documented, the C function of the same name gets what is given and its answer is returned or its failure raised, for every library; wrong numbers of inputs and outputs are errors. Refuted for the eight functions that read the name of a file from the place of the handle, for vectors that are too short, for matrices (rows and columns are exchanged, which shows when they are not symmetric), and for numbers that are no handles. |
| C117 | The VTK files show the system as it is | partial | TVtk.v | Rods, points, bodies, systems and the codes of errors as stated. Refuted for lines: the field F, one value per node, is attached to the cells, one per segment, so the polydata is never well formed; a line without segments reads an empty vector. Refuted for the model of a body: a name without a character other than dots reads an empty vector, and a missing file is reported as an output file. |
| C118 | A line changed through the API is the line described with the new values | partial | TSet.v | Proved: what is set is read back, any sequence of settings; a changed stiffness gives the forces and masses of the line described with it; the exact difference for a changed length (C118_length_partial). REFUTED by the code: the volumes of the segments are computed by initialize only, so after a change of length the added mass and the force of accelerating water are those of the old length (C118_length_refuted), and the limit of the time step is that of the line before the change (C118_time_step_refuted). The damping of a line given as a fraction of critical is not recomputed either, as the header warns. |
| C119 | Files are named after the input file and looked up beside it | partial | TPath.v | Proved: the split of any path into directory and name, places of all output files, distinct files of distinct objects, companions beside the input file whenever its path has a directory. Refuted: without a directory the files of waves and currents are looked for in the root; a full path of a curve file is prefixed by the directory; an input file with extension out is overwritten by the main output. |
| C120 | Sizes reported first are the sizes written next | partial | TBuf.v | Proved: both protocols of two calls, with exactly the cells written and the outcome for arrays that are too small, restoring from the array, null arguments, and that the reported name determines the scheme. Refuted: the reported name is never accepted by MoorDyn_SetTimeScheme. |
| C121 | A spectrum has the height and the peak it is made with | partial | TPM.v | Proved: the value at the peak frequency, the frequencies of the components. Refuted: the code divides the frequency by itself where the standard has the peak frequency, so the spectrum does not depend on the peak, falls everywhere and has unbounded energy; the components of any spectrum have 2 pi times its energy. The classes are in the header but nothing in the library calls them yet. |
| C122 | The file of wave frequencies is read as it is written | partial | TFreq.v | Proved for lines separated by spaces, with either kind of line ends: the components, all outcomes, and the errors for short lines, words that are no numbers and directions beyond a turn. Refuted: lines of five words or more are read without an error, with direction 0 whatever the fourth word is. |
| C123 | The answers for the nodes of a line agree with each other | partial | TQuery.v | Carries the findings of C43 to the C functions and to every state. The largest tension is that of the nodes 0..N-1 (C123_max_partial). C123_max_refuted: end B is left out, so for every line tensest at its last segment, the usual case of a hanging line, the answer is below the tension at end B (C43 has one witness). C123_seabed_refuted: the seabed force answered is the reaction plus the bending force answered for the node, and is the reaction only where that is 0. C123_net: the net force is the sum of the answers. C123_no_line: queries without a line. Missing: NaN values. |

## 3. Trusted base, and what is modelled

* Coq 8.16.1 kernel (and its `vm_compute` machine).
* The axioms of section 5.
* Libraries used: Coq's standard library, and Flocq for the double precision loop of C25.
* The reading of the C++ text: nothing is extracted or run; each definition cites its source lines.
* Parameters (oracles) of the model: the library behind the Python module (`lib`) and `malloc` (`mok`) in MPy, the library behind the Fortran and Rust bindings (`lib`) in MBind, the library behind the Matlab wrapper (`lib`), how far it reads and writes (`reach`) and the conversions of numbers in MMex, `atof`, `stod`, `stold`, `stof`, `stoul`, `atan2` on signed zeros, the
  file system, the allocation addresses of the C interface, the objects' forces in theorems about the
  integrator, the equation solver of Eigen (described by the equation it solves), the axis Eigen's `FromTwoVectors` picks by
  SVD for opposed vectors (`opposed` in MRodS and MFull); in MFull the forces and derivatives of all objects (`deriv`), the
  time step limit (`lim`) and the convergence test of the implicit schemes (`conv`). The theorems hold for every value of them.

Modelled, by source file:

| source | modelled | not modelled |
|--------|----------|--------------|
| IO.cpp/hpp | all of packing, every Serialize/Deserialize, Save, Load, version rules | failures of the operating system |
| Misc.cpp/hpp | strings, error macros, matrices, quaternion and angle conversions, mass translation | `printf`-like formatting |
| Util/Interp.hpp, Util/CFL.hpp, Seafloor.cpp | all | messages |
| State.cpp/hpp | all operators, `Mix`, Newmark/Wilson updates | printing |
| Time.cpp/hpp | all schemes, registration, creation by name, calculation mask | registration of waves and ground beyond the list |
| Line.cpp/hpp | `setup`, curves, `setState`, `getStateDeriv`, tensions, curvature, queries, `initialize` (catenary, damping, heads), output rows, state files, polydata | |
| Rod.cpp/hpp | `setup`, kinematics, forces, masses, accelerations, attachments, `initialize`, `initiateStep`, output rows, state files, polydata | |
| Body.cpp/hpp, Point.cpp/hpp | kinematics, forces, masses, accelerations, attachments, state files, polydata | |
| MoorDyn2.cpp/hpp | constructor (names of files), input reader, `Init` (parts, with both generations of initial conditions), `Step`, failures, outputs (gate, channels, layout of the files), C interface | the formatting of a number, threads |
| MoorDyn.cpp | all | the deprecated driver's messages |
| Waves.cpp/hpp, Waves/*.cpp | setup from the options, grids, interpolation, sums of components, dispersion, construction from spectra, records and current files, addition of currents, spectra given by formulas | |
| kiss_fft.cpp, kiss_fftr.cpp | all, over `R` | the OpenMP variant |
| Log.cpp/hpp | level decisions, file creation | streams after opening |
| QSlines.hpp | all, over `R` | |
| VTK_Util | all of it | the library VTK |
| wrappers/python | cmoordyn.cpp and moordyn.py, over any library | the interpreter beyond the conversions used, keyword arguments, `__init__.py` |
| wrappers/fortran, wrappers/rust | the declarations and procedures of MoorDyn.f90 and of bindings.rs against the C prototypes, over any library | intents, optional layouts of compilers other than what `bind(C)` promises, build.rs and the generation of bindings.rs |
| wrappers/matlab | moordyn_matlab.h and all MoorDynM_*.cpp, over any library | the ranges of numbers, the texts of error messages, CMake |

Four models join the parts: MEnd.v (ends of lines at rods), MRodS.v (a rod with its kinematic state and lines), MSys.v (systems of
lines and points run by `Init` and `Step`; no rods, bodies other than the ground, externally given waves or failing lines in it) and
MFull.v (systems with every kind of object under every scheme; the forces are arbitrary functions there).

Reading of seeded/LOG.jsonl: an entry with "(through F.v:lemma)" means that the named lemma no longer compiled after the
edit, and the build stopped there; the theorems named before it are those that are derived from that lemma or were
chosen as stating the broken claim, they were not compiled one by one.  A lemma may also fail because its proof
script is tied to the text of the definition, so such an entry is weaker evidence than one naming a theorem alone.
The first 108 entries or so name, as failed, the theorems of every file that did not build after the edit; later entries name the
theorems whose statements were judged to be false after it.

### Model files

| file | what it models |
|------|----------------|
| MApi.v | The C interfaces: source/MoorDyn.cpp (version 1, one system per process) and the object getters of source/MoorDyn2.cpp l.2350-2660, source/Line.cpp, Point.cpp, Rod.cpp l.1560-1850 / 490-575 / 1582-1668. Simplifications: what a system does when created, initialised or stepped is given by functions (oracles) that return the error code of the call; the memory of the process is a finite map from addresses to the systems that have been allocated and not deleted. |
| MBind.v | Model of the bindings for Fortran, wrappers/fortran/MoorDyn.f90, and for Rust, wrappers/rust/bindings.rs, and of the C prototypes they stand for: source/MoorDyn2.h, Waves.h, Seafloor.h, Body.h, Rod.h, Point.h, Line.h. A call through a binding puts values where the C function expects its arguments, as the declarations of the binding say; the C function takes them as its own prototype says. If the two disagree, in number or in kind, the behaviour is undefined. The library is the oracle [lib]: what a C function returns and leaves behind, for the values it gets. Simplifications: every variable and every element of an array takes one address; const is dropped; an array of arrays is an array; which object a pointer to an object is for is not looked at, as in Fortran all of them are type(c_ptr); int and unsigned int differ in nothing. |
| MBody.v | Forces and masses of points and bodies: source/Point.cpp l.276-383, Point.hpp l.420-434, Line.hpp l.686-706, Rod.cpp l.742-775, Rod.hpp l.615-630, Body.cpp l.52-134, 476-632. Simplifications: doubles are exact reals. |
| MBuf.v | Arrays handed over by the caller: MoorDyn_GetTimeScheme, source/MoorDyn2.cpp l.2665-2678, MoorDyn_Serialize, l.2704-2724, and MoorDyn_Deserialize, l.2726-2745, and the names of the time schemes, Time.cpp l.157, 228, 333, 351, 374, 398, 438-443, 641-643, 678-681, 718-721 and 766-769. An array is the list of its cells; writing behind its end is [UB]. Sizes are integers: they are the sizes of objects in memory, so std::size_t holds them. |
| MCFL.v | Courant factors: source/Util/CFL.hpp and their use in source/MoorDyn2.cpp l.502-527, source/MoorDyn2.hpp l.328-361. Exact reals; the largest double is kept as a number. |
| MCat.v | The initial shape of a line: Catenary, source/QSlines.hpp l.84-597, and Line::initialize, source/Line.cpp l.403-537. Simplifications: doubles are exact reals; a computation that leaves the finite numbers (a division by zero) is [None] and stays so: in doubles it gives infinities and then NaN, with which no comparison holds. Messages and output files are left out. |
| MChan.v | The values of the output channels: MoorDyn::GetOutput, source/MoorDyn2.hpp l.804-819, and the functions of the objects behind it. The objects are what these functions read of them. |
| MCur.v | Current grids read from files and their addition to a wave grid: source/Waves/WaveGrid.cpp l.542-887, source/Waves.cpp l.183-199, 361-508. Simplifications: doubles are exact reals, also the depths of the dynamic profile, which are read with std::stof (the function [stof] may round); a file is the list of its lines, a line the list of its words; the three tables of components of the 4D file are one table of vectors; sizes fit in an unsigned int. Accesses out of a vector are [UB]. |
| MCurve.v | Nonlinear curves of line types: moordyn::MoorDyn::read_curve, source/MoorDyn2.hpp l.680-796, and what Line::setup (Line.cpp l.146-183) and Line::initialize (l.428-459) make of them. Oracles: [stold] and [atof] of the C library, and the file system [opened] (the contents of the file at a path). Doubles are reals. |
| MDetach.v | Attachment of line ends to points and rod ends, and detachment of lines by failures: source/Point.cpp l.101-136 and l.259-277, Rod.cpp l.183-231, MoorDyn2.cpp l.1187-1240 (attachments read from the file), l.714-735 (failures in Step) and l.2204-2276. |
| MEnd.v | The ends of lines at rods: source/Line.cpp l.224-226, 683-770, Line.hpp l.686-706 and Rod.cpp l.545-607. Simplifications: doubles are exact reals; the position, velocity and direction of the rod are given. |
| MErr.v | Errors and outcomes. Models source/MoorDynAPI.h (error codes) and source/Misc.hpp l.534-643 (exception classes, MOORDYN_THROW, MOORDYN_CATCHER). |
| MFFT.v | Model of the Fourier transforms used for the waves: source/kiss_fft.cpp, source/kiss_fftr.cpp and source/_kiss_fft_guts.h, with kiss_fft_scalar = double (kiss_fft.h l.62-64), modelled over the reals (no rounding). Memory is a total function from indices to numbers: what lies outside an array is an arbitrary value, so a theorem about all such functions is about the array only. The OpenMP variant of kf_work, l.253-289, runs the same work units, on disjoint parts of the output, and is not modelled. |
| MFast.v | The tensions of a line for FAST v7: Line::getFASTtens, source/Line.hpp l.667-676, which MoorDyn_GetFASTtens (MoorDyn2.cpp l.2607-2630, see MApi) calls for every line. Simplification: the results are floats in the code, exact reals here. |
| MFill.v | Model of the construction of the wave grids: doIFFT and fillWaveGrid, source/Waves/WaveGrid.cpp l.20-275, constructWaveGridSpectrumData l.351-404 and constructWaveGridElevationData l.405-540, from the numbers read from the files on. Simplifications: doubles are exact reals; the contents of freshly allocated or reused buffers of the transform are an arbitrary function [junk]; sizes are unbounded. |
| MFreq.v | The file of wave frequencies: spectrumFromFile, source/Waves/WaveSpectrum.cpp l.75-127, and the check of the first frequency, Waves.cpp l.370-373 and Waves/WaveGrid.cpp l.368-371. Numbers are exact reals; std::stod is any function. |
| MFull.v | Whole systems of bodies, rods, points and lines, with everything that moves: source/Time.cpp l.39-89 (TimeSchemeBase::Update) and l.147-148, Body.cpp l.247-310, 395-475, Point.cpp l.206-280, Line.cpp l.658-681, the functions of MRodS and MEnd, and the loops of MoorDyn::Step over the coupled objects (MoorDyn2.cpp l.633-716). Simplifications: doubles are exact reals; forces and the derivatives of the state are given ([cal] below), and so are the unstretched lengths (see MStep.upd_sys). Objects are reached by number, as by their addresses in the code |
| MIC.v | The generation of initial conditions: MoorDyn::icLegacy, MoorDyn::icStationary and their call in MoorDyn::Init (source/MoorDyn2.cpp l.188-330, l.332-405, l.527-540), scaleDrag of the objects (Line.hpp l.770, Rod.hpp l.422, Point.hpp l.318, Body.hpp l.356). Numbers are exact reals. The mooring system and its time scheme are any type with a step, a time, fairlead tensions and a residual. |
| MIO.v | Typed serialisation: source/IO.cpp l.158-195, 307-615 and IO.hpp l.195-331. A word is an integer in [0, 2^64). A serialised value is a list of words; reading takes the words that follow the read pointer and returns the rest. Reading past the last word is undefined behaviour. [be] is the byte order of the machine, [fuel] the loop bound of pack754. |
| MIOFile.v | State files: source/IO.cpp l.197-305 (IO::IO, IO::Save, IO::Load). A file is the list of its bytes (integers in [0, 256)); opening, writing and reading the file itself always succeed here (the open failures of l.217-220 and l.242-245 are not modelled). |
| MInterp.v | Interpolation: source/Util/Interp.hpp. Numbers are exact reals (rounding is not modelled). An access outside of a vector is [UB]. |
| MLine.v | The forces on a mooring line: source/Line.cpp l.62-122, 613-656, 729-1264 and the queries of source/Line.hpp l.417-706 and Line.cpp l.1806-1846. Simplifications: doubles are exact reals; vectors of N (segments) or N+1 (nodes) entries are functions of the index, a floating point NaN or infinity is [None]. |
| MLog.v | The logger: source/Log.hpp, source/Log.cpp, MoorDyn2.hpp l.644-677 and the log functions of the C API, MoorDyn2.cpp l.2360-2391. Simplifications: a message is the list of the pieces inserted with <<; whether a file can be created depends on its path alone (oracle [openable]); streams never fail once open. |
| MMat.v | Mass matrices, rotations and rigid kinematics: source/Misc.cpp l.200-359 and source/Misc.hpp l.161-270, 399-476, 780-950. Simplification: doubles are exact reals; in-place output arguments are returned. |
| MMex.v | Model of the wrapper for Matlab: wrappers/matlab/moordyn_matlab.h and wrappers/matlab/MoorDynM_*.cpp. Each function that reads its inputs, calls one C function and makes its outputs is a row of a table, read from its source; Create and ExternalWaveKinGetCoordinates are written out. The library is the oracle [lib]: what a C function answers, for the values it gets; [reach] is how many numbers it reads or writes at an address it gets. Simplifications: an error raised through feval and an exception of the Matlab data API are the same; elements of character arrays and of other arrays that are not numeric are not taken for numbers; numbers of all types become int or double without a look at their range. |
| MNodes.v | Water kinematics at the nodes of all the objects: source/Waves.cpp l.508-586 and l.662-870, Waves.hpp l.531-606, and the external wave kinematics of the C interface, MoorDyn2.cpp l.2450-2516 and MoorDyn2.hpp l.178-194. |
| MObj.v | What each object writes to the state file and reads back. Only the fields that are saved (records [..._saved]) and the fields that later results depend on but that are not saved (records [..._hidden]). |
| MOut.v | The texts of the output files: the individual files of lines, rods and bodies, and the main output file. Line::initialize and Line::Output (source/Line.cpp l.258-398, l.1268-1365), Rod::openoutput and Rod::Output (Rod.cpp l.233-298, l.1363-1411), Body::initialize and Body::Output (Body.cpp l.214-245, l.635-655), the part of MoorDyn::Init that calls them (MoorDyn2.cpp l.416-500, l.570-603; Time.hpp l.532-563), MoorDyn::AllOutput (MoorDyn2.cpp l.2278-2318) and the creation of the files (l.1155-1169, l.1931-1937, l.2050-2061). A file is the list of the characters written to it. How a number is written is a parameter. The files are taken to stay open. |
| MPM.v | Spectra given by formulas: PMSpectrum::getSpectrum, source/Waves/WaveSpectrum.cpp l.153-160, and ParametricSpectrum::getAmplitudes, l.129-146. Numbers are exact reals; the number of components is a natural number. |
| MPack.v | Floating point packing: source/IO.cpp l.50-147 (pack754, unpack754). Numbers are exact: a finite number is [FFin neg m e] = (-1)^neg * m * 2^e with m > 0. The code computes in long double; every operation it performs on a normal double (halving, doubling, subtracting 1, scaling by a power of two) is exact there, so exact dyadic arithmetic is what the machine does. |
| MParse.v | Reading the input file: MoorDyn::ReadInFile and its helpers, source/MoorDyn2.cpp l.847-2200. Oracles: atof, stof and stold of the C and C++ libraries, the file system (curve files, the seafloor file, creation of output files and of the log). Simplifications: log messages are left out; the objects are the values given to their setup functions, in the order of the lists; atoi ignores overflow; the registration of the objects in the time integrator and the waves (l.1622-1670) is reduced to what null pointers do. |
| MPath.v | The names of the files of a system: the constructor of MoorDyn, source/MoorDyn2.cpp l.101-110, the output files, MoorDyn2.cpp l.577, l.1161, l.1931 and l.2054, the log, MoorDyn2.hpp l.661, the files of curves, MoorDyn2.hpp l.707, the files of waves and currents, Waves.cpp l.364 and Waves/WaveGrid.cpp l.359, 394, 417, 532, 548, 625, 740, and the file of the sea floor, MoorDyn2.cpp l.2179-2184. A std::string is a list of characters; std::size_t has 64 bits; a std::out_of_range is [Throw ExStd]. |
| MPy.v | The Python extension module: wrappers/python/cmoordyn.cpp. What is modelled: parsing of the arguments (PyArg_ParseTuple), capsules and the pointers they hold, the references the wrapper takes and gives back, the memory it allocates and releases, the exception it sets, the calls into the library and the object it returns. Simplifications: a floating point number is an element of any type [F]; the library is given by functions (oracles) that return the error code, the numbers written and the new state of the system; Python objects can always be created (PyTuple_New, PyFloat_FromDouble, PyLong_FromLong, PyBytes_FromStringAndSize and PyCapsule_New do not fail), while malloc may fail; the items of a sequence do not change the sequence while they are converted to floats; strings hold no null character; objects with __index__ or __float__ methods are not accepted as numbers; unsigned int does not overflow. |
| MPyL.v | Model of the Python layer of the wrapper: wrappers/python/moordyn/moordyn.py, and of the table of methods of the module it calls, wrappers/python/cmoordyn.cpp l.2736-3013. Each function of moordyn.py that does nothing but call one function of the module is a row of a table, read from the source; Log and SetWaveKin are written out. The names of the arguments are replaced by their numbers, and calls with keyword arguments are not modelled. |
| MQuery.v | Queries of a line: MoorDyn_GetLineMaxTen, source/Line.cpp l.1834-1846, on the data of MApi, and the data a line keeps after Line::getStateDeriv, l.772-1264, from the forces of MLine. |
| MRod.v | The forces and the mass matrix of a rod: source/Rod.cpp l.65-182, 544-602, 604-740, 742-775, 866-1358 and Rod.hpp l.620-630. Simplifications: doubles are exact reals; [pi] (Misc.hpp l.988-995) is PI; arrays of N or N+1 entries are functions of the index; all segments have the length of Rod::setup; the functions of the attached lines are given by what Line::getEndStuff returned for them. |
| MRodS.v | Rods with their kinematic state: source/Rod.cpp l.65-182, 300-340, 432-607, 609-775, Body.cpp l.149-166, 247-310, 395-475 and Eigen's Quaternion::FromTwoVectors. Simplifications: doubles are exact reals; the interior nodes (which doRHS places, see MRod) are left out, so a rod has the nodes r[0] and r[N]; the solution of a linear system is described by the equations it solves. |
| MScheme.v | Time integration schemes: source/Time.hpp, source/Time.cpp. The schemes are written against the state arithmetic [sops] (State.cpp, see MStateOps) and three oracles for the objects of the system: [upd] (applying times and a state to the objects, Time.cpp l.39-89), [cal] (asking the objects for the derivatives, l.91-150) and [lim] (the Courant limits of the stationary scheme, l.205-216). Theorems hold for all oracles unless they say otherwise. Numbers are exact reals. |
| MSeafloor.v | Bathymetry: source/Seafloor.cpp. Numbers are exact reals. |
| MSet.v | Lines changed during the simulation: the setters of the C interface, source/Line.cpp l.1593-1670, with Line.hpp l.362-433 and l.780-805, Line.cpp l.658-666, on lines set up by Line::setup and Line::initialize, Line.cpp l.125-193 and l.426-433. Simplifications: doubles are exact reals; the length given in the input is not negative; a NULL handle is [None]. |
| MSetup.v | The setting up of waves and currents from the options: source/Waves.cpp l.246-507 (Waves::setup) and l.586-660 (queries), Waves/WaveOptions.hpp, MoorDyn2.cpp l.88, l.541-561 (MoorDyn::Init), l.1637-1652 (end of the reading of the input) and l.2146-2164 (options). |
| MSpec.v | Waves as a sum of components: source/Waves/SpectrumKin.cpp l.12-144, SpectrumKinWrapper of source/Waves.hpp l.183-220, WaveNumber of source/Waves.cpp l.919-976, and the even resampling of a spectrum, source/Waves/WaveSpectrum.cpp l.32-73. Simplifications: doubles are exact reals. A division by zero in the stretching of the water column is [UB] (see MWaves). A logarithm of a number that is not positive is 0 here; PSpec proves that its argument is positive. |
| MStateOps.v | State variables of the integrator and their arithmetic: source/State.hpp, source/State.cpp. Numbers are exact reals. A size mismatch detected by the code is [Throw ExInvalidValue]; an index outside of a vector is [UB]. |
| MStep.v | The coupling step: MoorDyn::Init (part), MoorDyn::Step, GetForces, NCoupledDOF, AllOutput (source/MoorDyn2.cpp l.432-500, l.606-747, l.2278-2317; MoorDyn2.hpp l.144-154, l.486-532), with the parts of Body, Rod, Point and Line that it drives. Numbers are exact reals, except for the substep loop, which is written for any number type so that MStepF can run it on doubles. |
| MStepF.v | The substep loop of MoorDyn::Step (MoorDyn2.cpp l.692-713) in double precision. Doubles are the real numbers of Flocq's format FLT with emin = -1074 and 53 digits, and t_target -= dt_step rounds to nearest, ties to even. The loop never increases its numbers, so overflow and NaN cannot occur; infinite arguments are not modelled. |
| MStr.v | String helpers: source/Misc.cpp l.39-169, source/Misc.hpp l.700-706. A std::string is a list of bytes. The character classes are those of the "C" locale; bytes >= 128 are in no class (std::isspace on a negative char is formally undefined, the model gives it the glibc answer: false). |
| MSwitch.v | The objects known to the system and to its time integrator: creation of the integrator, change of the time scheme (source/MoorDyn2.hpp l.371-385, MoorDyn2.cpp l.2681-2702), Init and SetState (Time.hpp l.532-588), Update (Time.cpp l.37-90), and the point created by a failure (MoorDyn2.cpp l.2229-2246). |
| MSys.v | Mooring systems of lines and points: the objects behind the time integrator and the coupling step. Models TimeSchemeBase::Update and CalcStateDeriv (source/Time.cpp l.39-150) for systems without rods and bodies (other than the ground), Line::setState and setEndKinematics (Line.cpp l.658-707), the end of Line::getStateDeriv (l.1225-1264), Point::updateFairlead, setKinematics, setState, getStateDeriv (Point.cpp l.224-297), the limits of the stationary scheme (Time.cpp l.205-216) and Point::getFnet (Point.hpp l.279). These are the oracles of MScheme and MStep. Simplifications: doubles are exact reals; the kinematics of the water are a function of time and position ([sea], see MNodes and MWaves for where it comes from), so externally given waves are left out; forces that are not numbers, and masses without inverse (the code gets infinities), raise the error at once, which the code raises at the next evaluation (Line.cpp l.781-792). |
| MTime.v | Bookkeeping of the time integrators: registration of objects (source/Time.hpp l.60-196, l.325-525), creation by name (Time.cpp l.805-888) and the calculation mask of the local schemes (Time.cpp l.242-328). |
| MVec.v | Small vectors and matrices over the reals: the Eigen types used by MoorDyn (source/Misc.hpp l.106-130: vec, vec6, mat, mat6, quaternion). Simplification: doubles are exact reals in this file and its users. |
| MVtk.v | Model of the VTK output: Util/VTK_Util.hpp l.48-65, Util/VTK_Util.cpp l.6-18, IO.cpp l.617-656, Line::getVTK, Rod::getVTK, Point::getVTK, Body::getVTK, Body::defaultVTK, MoorDyn::getVTK, the functions saveVTK and MoorDyn_UseBodyVTK, as built with USE_VTK. The library VTK itself is not modelled: a vtkPolyData is what was put into it, vtkTransform does what its documentation says, and readers and writers are oracles. vtkPoints and vtkFloatArray keep floats: [narrow] is the conversion. A tuple that was never set is None. Doubles of bodies are exact reals. |
| MWaves.v | Wave and current grids: source/Waves.cpp l.50-103, 126-237 and the containers of source/Waves.hpp l.54-113, 212-350. Simplifications: doubles are exact reals. A conversion of a floating point number to an unsigned integer out of its range is [UB]; a division by zero in the stretching of the water column (a sea bed touching the surface) has no value and is [UB] too. |

## 4. Findings

Every `REFUTED` entry of the table in section 2 is a defect (or an undocumented deviation) of the code with a
proof.  Beyond these, reading the sources showed the following, which no theorem covers or which explain a
hypothesis:

* `SpectrumKin` sums Re sin + Im cos, the grid uses the real part: the same file gives waves a quarter of a
  period apart (C93).  Its negative-frequency deep-water branch has the wrong sign and its dynamic pressure is
  always 0 (C90).
* `PMSpectrum` ignores the peak frequency; `ParametricSpectrum` uses a spacing in rad/s with a density in Hz.
* `spectrumFromFile` takes directions only if a row has exactly four columns.
* 4D currents are read from `folder + "current_profile_4d.txt"` without a separator; the depths of dynamic
  profiles go through `std::stof`; the dynamic branch of `Waves::setup` adds the acceleration to the velocity
  (harmless while it is 0); `Currents` 3 and 4 are accepted and silently give no current.
* The documentation asks for sequential IDs, the reader never checks them (C86); an unrecognised body
  attachment silently makes a free body; the default gravity is 9.80665, the documentation says 9.81.
* `MoorDyn_ExternalWaveKinSet` has no try/catch; a log file that cannot be created throws across the C
  interface (C51); `getWaveHeightPoint` dereferences a null pointer when there are no waves.
* `getFASTtens` (C105) counts the weight twice in the vertical tensions, with the added mass along x, so they change when the
  system is turned about the vertical.
* `Body::updateFairlead` of a coupled pinned body does not update the objects attached to it.
* The state file omits the accelerations of bodies (C09).
* Zero-length rods have volume-of-fluid 1 in air; the sea bed can pull rods (as C40 for lines); the rates of
  pinned coupled bodies in `Step` have an uninitialised tail.
* `Line::storeWaterKin` resizes with wrong sizes; a negative unstretched length gives a NaN Courant factor.
* `fileToLines` keeps empty lines, so a trailing blank line is a row of the table it follows.
* `SetDt` accepts a model step that is not positive, for which `Step` does not return (C24).
* Catenary (C95): in its last iteration the damping factor is 0, so any state is accepted as solution; a negative
  vertical force in the grounded branch lays all nodes on the bed; distances below the tolerance are replaced by
  it; the sea bed is taken flat at the level of the lower end.
* Initial conditions (C97): `dtIC` is divided by ten twice and stays divided; after a failure the drag
  coefficients stay scaled; `CdScaleIC` 0 gives 0 times infinity; `Init` with a null position only logs.
* Output files (C98): the flags K and b of lines and f of rods are undocumented and make columns but, alone, no
  file; the columns D include the added mass forces; the tension channels of rods have no number in their name.
* Options of waves (C99): `WAVES_FFT_GRID` is compared twice in the check of compatibility, where `WAVES_GRID` was meant in
  one of them; WaveKin 4 is refused only without currents. The first call of `Waves::setup` is made with waves off, so
  an assertion about currents ends the program at the reading of the input. `getWaveKin` with external waves gives
  only the currents.
* Lines at rods (C100): `endMomentA`, `endMomentB` are never assigned after initialization, so a clamped line is bent by
  its rod but does not turn it; rods without length balance a sine law; with a bending curve they get NaN.
* Axes (C101): the convergence test of the Anderson scheme averages the absolute components, so it depends on the axes;
  the acceleration itself is never reached (a `return` comes first).  Rods closer than 1e-6 to the vertical lose their heading.
* Order of the ends (C102): a line standing on the surface has submerged fraction 1 seen from its foot, 0 seen from its top.
* Unconnected systems (C103): the stationary scheme takes one step for all objects from the sum of their errors, so
  systems that share nothing change each other's path to equilibrium.
* Water accelerations (C106): points and bodies ignore the acceleration of the water (`Point.cpp` l.367 is a TODO), so a neutral
  point in accelerated water falls behind it.
* Submerged fraction (C41): for a thick segment the fraction jumps when an end passes the surface.
* Pins (C107): a spinning pinned or coupled rod lacks the gyroscopic moment; the force reported to the vessel lacks the
  centripetal part; a rod pinned to a body hands the body the moments of a clamped rod (`Rod.cpp` l.767 asks the question) and never
  feels its acceleration, because nothing sets `acc6` for `PINNED` rods.
* Initial places (C108): `Rod::setup` turns the rod towards end B as a vector from the origin, `FromTwoVectors(q0, endCoords.tail)`, so
  after `Init` a free or coupled-pinned rod points the wrong way until the first update; lines start from the wrong ends.
  A rod pinned to a body that is turned starts with the direction in the global frame.
* Rates (C109): coupled bodies and rods take rates of roll, pitch and yaw for an angular velocity.
* Python module (C111, C112, C113): `deserialize` given no bytes returns NULL without an exception, and does not pass the length of the
  bytes on; `waves_getkin` without its optional argument reads a pointer that was never set; `line_set_pbend` parses a
  bool with the format "b" into an int; `step`, `init`, `ext_wave_set` and `line_set_pint` leak the sequences on a wrong length,
  `step` leaks the forces when the library fails, `get_fast_tens` four arrays; `save`, `load`, `deserialize` and `line_set_*` return
  `Py_None` without `Py_INCREF`; handles outlive `close`.
* Python package (C114): `GetWavesKin` passes six arguments to a function that takes five and cannot be called; `ExternalWaveKinGetN`
  calls `ext_wave_init`; `GetLineNodeSeabedForce` calls `line_get_node_froudekrylov`; `IsLinePressBend` uses a name that does not
  exist; `UseBodyVTK` calls a method that does not exist.
* Fortran module (C115): `MD_SetVerbosity` is bound to a symbol that does not exist; `MD_SetLogLevel`, `MD_Log`, `MD_SetLinePressBend`,
  `MD_ExternalWaveKinSet` and `MD_SetLineConstantEA` lack `value` and pass an address for a number; `MD_GetWavesKin` has an argument
  the C function does not have; `MD_GetFASTtens` passes doubles where floats are written; sections of arrays with gaps are
  passed by the address of their first element.
* Rust crate (C115): `MoorDyn_GetWavesKin` lacks the parameter for the seafloor.
* Matlab wrapper (C116): `MoorDynM_Save`, `Load`, `SaveVTK`, `SaveBodyVTK`, `SaveLineVTK`, `SaveRodVTK`, `SetLogFile` and `UseBodyVTK` read the
  name of the file from `inputs[0]`, the handle, and can never succeed; `Step`, `Init`, `Init_NoIC`, `SetLinePressInt` and
  `ExternalWaveKinSet` do not look at the lengths of the vectors; the four functions that return matrices exchange rows and
  columns; any number is taken for a handle.
* VTK output (C117): the polydata of a line has the field F, with one value per node, among the data of its cells, one per segment;
  `getVTK` of a line without segments reads the front of an empty vector; `MoorDyn_UseBodyVTK` reads the back of an empty vector
  for an empty name and reports a missing model as `MOORDYN_INVALID_OUTPUT_FILE`.
* Bodies (C72): the centripetal term of a body multiplies the added mass too, as if the water were at the centre of gravity, while
  the mass matrix has it at the reference point; a body turning in weightless water is accelerated by no force.
* Bending (C89): the curvature at a node is taken per stretched length, so the moment of a bend depends on the lengths of its
  segments, but its forces do work only against the angle. No energy of the shape has this power: a line that bends, stretches,
  straightens and shortens in turn gains or loses energy.
* Bending (C63): a segment of positive length below the tolerance (50 machine epsilons) has a direction that is not a unit vector, and
  the bend next to it has a moment on the line.
* Setters of lines (C118): `Line::setUnstretchedLength` changes the lengths of the segments but not their volumes, which only
  `Line::initialize` computes: the weight and buoyancy follow the new length, the added mass and the force of accelerating water do
  not. The limit of the time step (NatFreqCFL) keeps the length and stiffness of the input file.
* Names of files (C119): if the input file is given without a directory, its base path is empty and `folder + "/wave_frequencies.txt"`
  is a path from the root; so are the files of the water grid, of the elevation and of the steady and dynamic currents (the 4D
  currents are not, their name has no separator). A curve file given by its full path is prefixed by the directory of the input. An
  input file with extension `out` is overwritten by the main output.
* Names of time schemes (C120): `MoorDyn_GetTimeScheme` reports a description such as `2nd order Runge-Kutta`, and
  `MoorDyn_SetTimeScheme` accepts none of the descriptions of the schemes it makes.
* Spectra (C121): `PMSpectrum::getSpectrum` has `pow(f, 4)` and `f / f` where the standard it cites has `pow(f_p, 4)` and `f_p / f`: the
  spectrum is proportional to 1/f, whatever the peak. `ParametricSpectrum::getAmplitudes` multiplies values per hertz with a width in
  radians per second. Nothing in the library calls them.
* File of wave frequencies (C122): a line of five words or more is accepted, although the message asks for 3 or 4 columns, and its
  direction is dropped.
* Largest tension of a line (C43 by a witness, C123 for every line tensest at end B): the loop of `MoorDyn_GetLineMaxTen` stops before the last node, so the tension at end B is left
  out; for a line tensest at its last segment, as any line that hangs from its fairlead, the answer is below that of
  `MoorDyn_GetLineFairTen`.
* Seabed force of a node (C43, C123): `getNodeSeabedForce` answers the reaction of the seabed plus the bending force of the node.

## 5. Axioms

`Print Assumptions` stands under every property theorem.  All of the axioms are those of the standard
library behind `R` and classical logic; the model adds none:

* S = `ClassicalDedekindReals.sig_forall_dec`
* N = `ClassicalDedekindReals.sig_not_dec`
* F = `FunctionalExtensionality.functional_extensionality_dep`
* C = `Classical_Prop.classic`

* **none: closed under the global context** (166 theorems): C01_word_is_ieee754, C01_number_roundtrip, C01_zero_roundtrip, C01_word_roundtrip, C02_large_subnormals_partial, C02_infinity_refuted, C02_nan_refuted, C02_subnormal_lost_refuted, C02_small_subnormals_refuted, C03_unsigned, C03_signed, C03_real, C03_vec, C03_vec6, C03_mat, C03_mat6, C03_quaternion, C03_xyzquat, C03_list, C03_injective, C03_same_bytes_on_disk, C04_save_load_partial, C04_any_object_partial, C04_other_byte_order_refuted, C05_short, C05_magic, C05_old_version, C05_size_partial, C05_success_implies_wellformed, C05_size_wraps_refuted, C06_own_version_partial, C06_own_version_refuted, C07_header_failure_keeps_state_partial, C07_failed_load_changes_state_refuted, C07_out_of_bounds_refuted, C08_point, C08_body, C08_line, C08_rod, C08_integrator, C08_system, C09_saved_fields_partial, C09_unstretched_length_refuted, C09_failures_refuted, C09_body_acceleration_refuted, C10_error_code_roundtrip_partial, C10_undocumented_code, C10_only_success_is_silent, C10_caught_errors, C10_kinds_distinguished, C10_nonimplemented_escapes_refuted, C11_split_returns_the_words, C11_every_text_is_a_layout, C11_split_line_spaces_partial, C11_split_line_tabs_partial, C11_mixed_blanks_refuted, C12_rtrim, C12_rtrim_unique, C12_is_space, C12_lines_unix, C12_lines_windows, C13_decompose, C13_return_value, C18_add_partial, C18_any_additions_partial, C18_adding_twice_is_an_error, C18_removing_unknown_is_an_error, C18_remove_partial, C18_remove_keeps_wrong_entry_refuted, C18_remove_out_of_bounds_refuted, C26_as_many_forces, C26_reported_count, C26_count_without_pinned_bodies_partial, C30_read, C30_detached_point_frozen_refuted, C36_whole_matrix_partial, C43_constant_stiffness_inverted_refuted, C49_one_system_partial, C49_active, C49_step, C49_one_live_refuted, C50_getter, C50_getter_null, C50_getter_int, C50_attached, C50_fast_tensions, C51_terminal, C51_file, C51_other_files, C51_writeLog, C53_list, C66_bending_partial, C85_rod_refuted, C85_channel_refuted, C85_option_refuted, C88_old_names_refuted, C89_power_partial, C89_energy_refuted, C92_factors_fit, C111_step, C111_init, C111_wave_set, C111_pint, C111_simple, C111_safe_partial, C111_waves_getkin_partial, C111_waves_getkin_refuted, C111_deserialize_refuted, C111_pbend_refuted, C112_clean_partial, C112_step_partial, C112_init_partial, C112_wave_set_partial, C112_leak_refuted, C112_fast_refuted, C112_none_refuted, C113_wrong_kind, C113_close, C113_close_twice_refuted, C113_dangling_refuted, C114_documented_partial, C114_objects, C114_step, C114_init, C114_wave_points, C114_log, C114_waves_kin_refuted, C114_wave_n_refuted, C114_wave_init_refuted, C114_seabed_refuted, C114_press_bend_refuted, C114_use_vtk_refuted, C115_fortran_partial, C115_fortran_refuted, C115_sections_refuted, C115_rust_partial, C115_rust_refuted, C116_documented_partial, C116_create, C116_coordinates, C116_counts, C116_files_refuted, C116_lengths_refuted, C116_matrix_refuted, C116_handles_refuted, C117_line_partial, C117_line_refuted, C117_segments_refuted, C117_rod, C117_point, C117_system, C117_save, C117_model_partial, C117_model_refuted, C119_names, C119_default, C119_outputs, C119_distinct, C119_companions_partial, C119_waves_refuted, C119_full_path_refuted, C119_input_kept_refuted, C120_bytes, C18_remove_entries_refuted, C18_every_removal_refuted, C06_own_files_refuted.
* **S** (33 theorems): C22_sum_of_states, C22_sum_of_mismatched_states_is_an_error, C22_difference_of_mismatched_states_is_an_error, C22_scaling, C22_sum_of_derivatives, C22_difference_of_derivatives, C22_difference_of_states_partial, C22_mix_mismatch_refuted, C30_detach, C30_detach_error, C30_kinematics, C42_first_column_partial, C42_point_limit_partial, C42_second_column_ignored_refuted, C42_final_newline_refuted, C43_sea_bed_force_refuted, C48_one_or_two_partial, C48_three_refuted, C48_six_refuted, C54_same_order, C54_with_currents, C54_too_few, C54_different_numbers, C54_too_many_refuted, C54_interface, C54_tables, C83_both_ends_refuted, C83_other_lines_partial, C84_sum, C84_waves_only, C84_currents_only, C84_none, C94_columns.
* **S F** (151 theorems): C14_interpolates, C14_spec_determines_value, C14_tabulated_value, C14_between_neighbours, C14_bounded, C14_factor_in_range, C14_factor_designates_segment, C14_hint, C14_batch, C14_batch_unordered_refuted, C14_batch_single_entry_refuted, C15_bounded_partial, C15_depth_at_grid_point, C15_bilinear, C15_constant_beyond_grid, C15_shallowest_point, C15_incomplete_refuted, C16_average_is_mean_partial, C16_average_refuted, C17_velocity_step_stable_for_attached, C17_velocity_factor_largest_of_attached, C22_add_then_subtract_partial, C22_rigid_difference_refuted, C22_difference_entry_by_entry, C23_plain_names, C23_numbered_names, C23_other_names_are_errors, C23_missing_number_is_an_error, C23_local_names_refuted, C23_negative_count_refuted, C23_trailing_text_refuted, C24_substeps_add_up_exactly, C24_the_integrator_gets_these_substeps, C24_nonpositive_model_step_hangs, C26_entries_used_once_in_order, C26_shorter_arrays_are_overrun, C26_reported_count_refuted, C28_even_segments_sum_to_the_length, C28_setting_the_length, C29_only_once_partial, C30_history, C30_failed_detach_refuted, C31_row_iff_interval_ends, C31_each_multiple_in_one_step, C31_long_steps_always_write, C31_initial_row_refuted, C32_move_mass, C32_move_inertia, C32_moves_compose, C32_mass_then_inertia, C32_assembled_body, C32_stays_nonnegative, C33_rotate_mass, C33_rotate_3x3, C34_reference_point, C34_velocity, C35_cross_product_matrix_refuted, C35_cross_product_matrix_partial, C36_whole_matrix_refuted, C43_set_stiffness_partial, C47_closed_partial, C47_options_refuted, C47_refuted, C50_nodes, C50_invalid_node, C52_wave_samples_partial, C52_current_samples_partial, C52_wave_last_interval_refuted, C52_current_last_interval_refuted, C52_wave_steady, C52_current_steady, C53_lattice, C53_lattice_increasing, C55_state_partial, C55_unknown_name, C55_time_refuted, C55_shape_refuted, C55_after_failure_refuted, C55_waves_refuted, C56_line_recomputed, C56_others_always_recomputed, C57_fixed_point_preserved, C58_count_partial, C58_refuted, C60_orientation_is_rotation, C62_orientation_rate_partial, C66_curve_stores, C68_extra_not_zero_refuted, C69_rigid, C74_rod_wrench_partial, C80_above, C80_bed, C81_wave_node, C81_current_node, C81_wave_bounds, C81_current_affine, C82_too_early_refuted, C82_never_refuted, C82_when_partial, C82_once, C85_reported_partial, C85_failure_refuted, C86_references, C86_tables, C86_numbers_refuted, C87_rows_only, C87_front_matter_partial, C87_title_refuted, C87_second_section_refuted, C91_resample_partial, C91_descending_rejected, C91_even_kept, C91_last_lost_refuted, C94_steady_partial, C94_descending_refuted, C94_short_files, C94_dynamic_samples, C94_dynamic_flow_partial, C94_dynamic_end_refuted, C94_4d_table, C94_4d_partial, C94_4d_first_line_refuted, C94_unify, C94_dynamic_acceleration_refuted, C94_4d_unknown_word_refuted, C97_ends, C97_time, C97_converged_partial, C97_period_refuted, C97_report_refuted, C97_drag, C97_init, C97_static_ends, C97_static_partial, C97_static_refuted, C99_documented, C99_nodes, C99_external, C99_files, C99_others, C99_not_implemented_refuted, C99_depth_refuted, C99_height_partial, C101_acceleration, C101_anderson_refuted, C118_null, C120_name, C120_name_short, C120_null, C120_name_tells, C120_set_back_refuted.
* **S N F** (222 theorems): C17_step_stable_for_attached, C17_factor_largest_of_attached, C17_step_attained, C17_factor_attained, C17_line_roundtrip, C17_line_step, C17_init_stable, C17_init_factor, C17_init_factor_not_above_requested, C17_init_requested_step, C17_set_cfl, C17_set_dt, C17_set_roundtrip, C19_step_advances_time, C19_objects_are_left_at_the_final_time, C19_only_times_of_the_step, C19_step_succeeds, C19_wilson_refuted, C20_euler_method, C20_rk2_method, C20_rk4_method, C20_rk2_constant_acceleration, C20_euler_linear, C20_rk2_linear, C20_rk4_linear, C20_heun_method_partial, C21_weights_partial, C21_rigid_constant_refuted, C21_after_n_steps, C24_time_advances_by_dt, C24_no_step_without_time, C27_end_of_step, C27_inside_the_step, C28_pay_out_over_a_run, C29_what_is_executed, C29_failure_time_refuted, C31_step_writes_that_row, C34_rigid_motion, C37_internal_forces_cancel, C37_node_masses, C37_total_weight, C37_linear_lines_have_forces, C38_slack_segment, C38_taut_segment, C39_point_drag_dissipates, C39_body_drag_dissipates, C39_line_drag_dissipates, C40_friction_partial, C40_pushes_up_partial, C40_no_contact_partial, C40_sea_bed_pulls_refuted, C41_range_partial, C41_below_and_above_partial, C41_thin_line_partial, C41_thick_line_partial, C41_jump_refuted, C41_order_partial, C41_end_on_surface_refuted, C42_tension_curve_partial, C42_two_sided_damping_partial, C42_one_sided_damping_refuted, C42_damping_curve_at_rest_refuted, C43_maximum_partial, C43_fairlead_tension_partial, C43_maximum_omits_fairlead_refuted, C46_net_force_and_mass, C46_order_of_attachment, C46_unknown_end_rejected, C46_acceleration, C49_queries, C49_invalid_line_refuted, C57_factor_in_unit_interval_partial, C57_last_iteration_unrelaxed, C59_euler, C59_rk2, C59_rk4, C59_heun, C59_adams_bashforth, C59_implicit_euler, C59_anderson, C59_newmark_refuted, C59_newmark_partial, C59_wilson_partial, C60_stored_orientation, C62_orientation_rate_refuted, C63_clamped_moment, C63_no_internal_moment_partial, C64_mass_symmetric, C64_mass_positive_definite, C64_second_law, C65_damping_dissipates_partial, C65_dissipated_power_partial, C65_one_sided_curve_drives_refuted, C65_curve_dissipates, C65_curve_power, C66_energy_balance_partial, C66_curves_partial, C66_linear_stores, C69_spacing, C69_far_end, C71_only_outside_forces, C72_point_part, C72_free_body_partial, C72_coupled_reaction, C72_pinned_reaction, C72_body_in_water, C72_pinned_in_water, C72_water_refuted, C73_angular_momentum_refuted, C73_spinning_body_refuted, C73_no_spin_partial, C74_point_wrench_partial, C74_turning_refuted, C75_kinetic_energy, C75_positive_definite, C75_unique_acceleration, C75_pinned_acceleration, C76_point_above_water_refuted, C77_newmark_method, C77_constant_acceleration, C77_converged_energy, C77_one_iteration_lag_refuted, C78_wilson_free_fall_refuted, C79_step_factor, C88_line, C88_line_node, C88_line_end, C88_fairlead_anchor, C88_point, C88_rod, C88_rod_node, C88_body_partial, C88_body_net_partial, C88_body_net_refuted, C88_missing_refuted, C88_fairlead_function_refuted, C89_circle, C89_clamped_end_partial, C89_uniform_bending, C89_energy_partial, C92_transform, C92_forward_real, C92_inverse_real, C92_round_trip, C92_odd_refused, C96_damping, C96_given, C98_line, C98_rod, C98_rod_flags_refuted, C98_body_partial, C98_body_refuted, C98_main, C98_torn, C100_attached, C100_attached_total, C100_joint_direction, C100_joint_moment, C100_joint_balance_partial, C100_joint_balance_refuted, C100_handed_moment_refuted, C100_curve_joint_refuted, C101_line, C101_point, C101_body_partial, C101_simulation, C102_reversed_partial, C102_tension, C102_reversed_refuted, C103_part, C103_beside, C103_stationary_refuted, C104_numbers, C105_horizontal, C105_vertical_refuted, C105_weight_twice, C105_axes_refuted, C106_line, C106_line_mass, C106_line_drifts, C106_body_drag, C106_point_drifts_refuted, C106_body_drifts_refuted, C108_free_start_refuted, C108_first_update_partial, C108_vessel_pin_refuted, C108_fixed, C108_pinned_refuted, C109_attached_point_refuted, C109_attached_point_partial, C109_rod_refuted, C110_update, C110_total, C110_boundary, C110_step, C110_coupling, C110_run, C63_clamped_curve, C63_short_segment_refuted, C118_settings, C118_stiffness, C118_length_partial, C118_length_refuted, C118_time_step_partial, C118_time_step_refuted, C121_peak_value_partial, C121_frequencies, C121_amplitudes_refuted, C122_components, C122_total, C122_errors_partial, C122_fifth_word_refuted, C123_max_partial, C123_max_refuted, C123_no_line, C123_seabed_refuted, C123_net, C40_pulls_exactly_partial, C40_leaving_refuted, C57_newmark_range_partial, C65_one_sided_power_partial, C65_shortening_driven_refuted.
* **S N F C** (73 theorems): C20_euler_exact, C20_rk2_exact, C20_rk4_exact, C20_rk4_quadratic_acceleration, C20_heun_refuted, C21_constant_derivative_partial, C21_linear_derivative_refuted, C25_step_terminates_partial, C25_small_model_step_never_ends, C25_step_terminates_refuted, C39_rod_drag_dissipates, C44_cylinder_partial, C44_positive_definite_partial, C44_many_segments_refuted, C45_upright_partial, C45_submerged_partial, C45_dry_partial, C45_upside_down_refuted, C45_touching_refuted, C57_newmark_factor_refuted, C60_reported_angles, C60_reported_ranges, C60_set_then_read, C61_direction_rebuilt, C61_ranges, C61_short_vector_rejected, C67_archimedes_partial, C67_light_immersion_refuted, C68_centre_of_mass_refuted, C68_no_rotation_partial, C69_angles, C70_not_negative, C70_at_most_one_partial, C70_above_one_refuted, C72_rod_part, C72_rod_lines, C90_linear_waves, C90_dispersion_partial, C90_acceleration_refuted, C90_pressure_refuted, C93_spectrum_grid_partial, C93_spectrum_grid, C93_first_frequency, C93_mean_halved_refuted, C93_modes_disagree_refuted, C93_elevation_grid_partial, C93_fast_waves_refuted, C95_static, C95_closes, C95_hangs, C95_step, C95_slack, C95_line, C95_anchor, C101_rod_partial, C106_rod, C106_rod_mass, C106_rod_drifts, C107_vessel_turns_partial, C107_solvable, C107_spin_refuted, C107_vessel_force_refuted, C107_vessel_force_partial, C107_clamped_refuted, C107_body_moment_refuted, C107_falling_refuted, C117_body, C117_axes, C89_clamped_power_partial, C66_clamped_partial, C121_peak_refuted, C121_height_refuted, C57_newmark_overshoots_refuted.

## 6. Tests of the theorems against wrong programs

`seeded/LOG.jsonl` has one line per attempt (656 so far): the definition of the model that was changed, the
change, the claim it breaks, the theorems whose proofs failed, and those tightened after a change had gone
unnoticed.
