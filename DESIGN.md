# Formal model of AMAT in Rocq (Coq 8.16.1)

## Approach

Shallow, executable-style Gallina models of the Python functions, one definition per
function, over the standard library's real numbers. Python exceptions are values
(`Err ValueError` ...). Floating-point NaN/inf results are the value `None` where the code can
reach them. Loops are structural recursion, or recursion on fuel with an explicit
out-of-fuel result. External engines (ODE solvers, random numbers, ephemerides, Newton's
method, cubic splines) are universally quantified functions: a theorem holds for whatever
they return.

Layout of `rocq/theories`: `*Model.v` files hold definitions with citations, `*Spec.v` files hold the
independent specifications, `*Proofs.v` files hold lemmas, and `Prop*.v` files restate
the theorems with their witnesses and `Print Assumptions`.

## Plan per property

- **C01** Planet model (catalogue + density branches) over an arbitrary interpolant; case analysis.
- **C02** Same model; equality on [0,h_thres]; explicit separating tables outside.
- **C03** Numpy model of interp1d(kind='linear') on lists (stable sort, bracket search, fill); induction on the table.
- **C04** Model of nonDimState/dimensionalize; field arithmetic with positivity of the scales.
- **C05** Model of the conversions on lists; injectivity by inversion functions.
- **C06** Catalogue as a function from strings to result; case analysis on strings.
- **C07** Model of the sigma blend; algebra, monotonicity, an explicit negative profile for every positive average.
- **C08** Slices as firstn/skipn; list induction.
- **C09** scaleHeight model takes the interpolant argument; equality for any two arguments.
- **C10** Launcher = linear table with fill 0; corollaries of C03.
- **C11** sorted(set(.)) as insertion sort + nodup; induction.
- **C12** Link constructor as an exception-valued function; log identities, monotonicity.
- **C13** Same model; independence from Dr, iff-characterisation of the correct case.
- **C14** Same model; iff-characterisation of the failing argument combinations.
- **C15** Schedule constructor with its for/break/else loop; induction on windows and points.
- **C16** cumulative_trapezoid on lists; induction.
- **C17** Lander geometry with arccos as a partial function; acos monotonicity.
- **C18** Ray/sphere geometry; independent spec (exists s > 0 with |a + s n| < 1).
- **C19** linspace model and rotation rate sign; list induction.
- **C20** 3x3 matrices; trigonometric ring identities.
- **C21** Approach constructor in the option monad (None = NaN/inf); algebra.
- **C22** atan2 model; trigonometric identities.
- **C23** pos/vel model; identities from sin/cos of acos.
- **C24** Vector/element round trip; acos branch analysis.
- **C25** Entry fields; domain conditions of arccos.
- **C26** arctan(y/x) versus the true longitude; case x>0 / x<0.
- **C27** Vector algebra.
- **C28** Lagrange coefficient model; algebra.
- **C29** arctanh/sinh model; monotonicity via derivative-free argument.
- **C30** Same model; iff on the cosine of the transfer angle.
- **C31** Orbiter pos/vel model; identities.
- **C32** Sign of sin(acos .).
- **C33** Algebra.
- **C34** Algebra + sqrt monotonicity.
- **C35** Kepler function strictly increasing (MVT) and surjective (IVT); half-angle identities.
- **C36** Orbiter object as a state with an optional entry anomaly; history semantics.
- **C37** Force model; trig identities.
- **C38** Potential as a spec; derivable_pt_lim.
- **C39** Derivative of the Jacobi function along any solution (derivable_pt_lim chain) plus monotonicity.
- **C40** Cartesian Newton spec in the rotating frame; algebraic equality of the rates.
- **C41** Algebra.
- **C42** classifyTrajectory on lists with argmax semantics; list induction.
- **C43** firstn lemmas.
- **C44** Load model with partial sqrt; algebra.
- **C45** Rpower models; positivity and monotonicity.
- **C46** Exception-valued model of cumulative_trapezoid(initial=...).
- **C47** State-passing model of the sweep loop.
- **C48** While loop with fuel; invariant; fuel sufficiency.
- **C49** Exception-valued state machine with arbitrary oracle.
- **C50** Composition of two searches.
- **C51** Model of the predicates over an arbitrary propagation oracle.
- **C52** Two-body algebra.
- **C53** Vector algebra.
- **C54** sqrt monotonicity.
- **C55** Controller model; case analysis.
- **C56** Invariant by induction over command histories.
- **C57** acos range.
- **C58** Loop machine over an arbitrary segment oracle; invariant.
- **C59** Loop machine; length invariants.
- **C60** State-passing model with copies and exceptions.
- **C61** Model on measurement lists.
- **C62** State-passing model.
- **C63** Run loop over an arbitrary flight oracle and draw stream; induction on runs.
- **C64** Same.
- **C65** Same, with a file-system trace and crash points.
- **C66** Decompose the velocity in the up/east/north frame; show the projected unit vector is not renormalised.
- **C67** Exit state to inertial Cartesian state (spherical spec in ConicSpec); conic through the state.
- **C68** Vis-viva algebra at the apsis.
- **C69** Sign of the energy; unit vector of a zero node vector is NaN.
- **C70** Angular momentum scales under a parallel burn; perifocal positions compared.
- **C71** Projection of the two velocities on the radius.
- **C72** The scalar Mach routine calls `np.float`, absent from the pinned numpy; the exception propagates through every caller.
- **C73** arange as seq/ceil; archimedean bound on the integer part.
- **C74** Guided-flight machine (GuidanceModel.v); the recorded heat load of each cycle is `cumulative_trapezoid` from 0; induction on cycles.
- **C75** Same machine with scipy's check on `initial=`; iff characterisation of the cycles and predictions that return.
- **C76** Drag-modulated flight (DragModel.v): invariant on the vehicle carried through the phases.
- **C77** Same machines: invariant on the stored initial state.
- **C78** Campaign (MonteModel.v): the draws as a stream of standard normals and integers; case analysis on the setup.
- **C79** Campaign: the captured start state and the planet object left behind; induction on runs.
- **C80** The dimensionless accelerations depend on mass and area through beta only; functional extensionality makes the integrator's problem equal; the post-processing is compared field by field.
- **C81** Same, with the bank angle entering through LD*cos and LD*sin.
- **C82** Same, with the density entering through Planet.density; classification gives the range of the kept points.
- **C83** Parity of the terms of EOM; derivatives of the mirrored solution.
- **C84** SessionModel: a datatype of public calls and an interpreter over the object; congruence of every call for objects with equal configuration, an effect function per call as specification, induction over the list of calls.
- **C85** Atmosphere loading as a state transformer on the planet object (the raw arrays and the four profile functions), with the interpolation kind as a parameter assumed exact at its nodes (proved for linear); induction on the rows.
- **C86** Point k of each stored array as a function of the plotted altitude and speed at point k; from the alignment of C43 and the vector functions, for every k.
- **C87** The event function handed to solve_ivp, with the assumption that no returned state lies beyond the event; membership of kept points in the integrator's output.
- **C88** Correlations as data (coefficient, reference values, exponents, speed band) in CorrelationSpec.v; each branch shown equal to its row; monotonicity from the signs of the exponents, the jumps of C45 and the table order.
- **C89** Python's max on arrays with NaN and the running trapezoidal integral, characterised by induction; composed with the single-run model of C63.
- **C90** Specification of what one cycle adds (GuidanceRecordSpec.v), proved for every pass reachable from the start of the phase; the measured density by composition with C86 (the drag load at the last point of the cycle).
- **C91** The report as a relation on the last point of the history, proved for both exit phases; its meaning from the impulse theorems of C54.
- **C92** Specification of sampled, closed curves (OrbitArraySpec.v); periodicity of the position functions; endpoints from C33 and C34; deflection elements from the state after the burn, direction through the placed-orbit record.
- **C93** The entry block as a function of the entry position and velocity; geography for every position, with the y axis and the poles as separate cases.
- **C94** IEEE case analysis of the guidance law at zero dynamic pressure on the `ext` numbers of GuidanceModel; the three outcomes are characterised by iff statements in speeds and gains only (PropCommand.v).
- **C95** Range, grids and line distance of LanderToPlanet and OrbiterToPlanet against plain Euclidean formulas; the coinciding-body case by following the NaN direction through both classes (PropRange.v).
- **C96** The bisection of CorridorModel with a rounding function after every operation (RoundModel.v), assumptions on it in RoundSpec.v; loop invariant (brackets are machine numbers of the interval, outcomes opposite, width halves up to u) by induction on the rounds; Flocq's binary64 as an instance (PropRound.v, PropRound64.v).
- **C97** The grid formula with a rounding after every operation; error analysis with explicit constants; binary64 as an instance (PropRoundGrid.v, PropRound64.v).
- **C98** Case analysis of `look` past the domain of arccos; the fragile zenith vector is constructed for every error bound (PropRange.v).
- **C99** iff characterisations of the `Err` results of both propagations, `createDensityMeasuredFunction` and the Monte Carlo file readers in terms of their inputs only (PropErrors.v).
- **C100** Sessions of C84 extended with the guidance setters and guided flights (`GuidedModel.v`, specification `GuidedSpec.v`). Two flights from equal configurations are followed cycle by cycle (`same_flight`, equal up to the reference array a new object does not have); induction over the sequence of calls gives `C100_no_memory`, `C100_configuration` and `C100_reset`. The NaN flight oracle is assumed to keep vehicle and tolerance (`nan_keeps`) in the last two.
- **C101** `pos_vec_bi_dprime` of `ApproachModel.v` and the two axis attributes of `ApproachFrameModel.v`. The rotation takes the periapsis direction, the orbit normal and v_inf to their closed forms, so the rotated conic position is a polar-coordinate point (`C101_path_at_clock_angle`); `C101_aim_point` is an epsilon-delta limit at the true anomaly beta - pi with explicit bounds (`near_asymptote`).
- **C102** Induction over the history of calls of `OrbiterModel.v` (`after_calls`): the tuple of constructor attributes is invariant, and each report is a function of planet, orbit and the last release (`PropOrbitHistory.v`). Releases that miss the atmosphere are excluded: they read the previous entry anomaly (C36).
- **C103** (PropLegs.v, vocabulary LegSpec.v): invariant of the guidance loops: the state is explained by the list of legs flown so far; each pass adds one leg, identified with a call of the public propagation method on a fresh object. Legs at a NaN bank angle are left to the oracle.
- **C104** `ExactSpec.v` defines an exact integrator (its output is sampled from a continuous solution of the very right-hand side it was given, differentiable off a finite set of corners since the code's density jumps) and the SI energy of a reported point. `ExactProofs.v`: a continuous function with non-positive derivative off a finite set does not grow; a continuous function that never meets a value stays on its side (speed 0, latitude 90, cos gamma = -0.01 are where the code's right-hand side is not a number). `PropExact.v` carries this through post-processing, truncation and unit conversion to the reported channels, and along the chain of legs of C103. Witness: `PropExactEx.v`, an integrator that returns level flight exactly where that solves the equations.
- **C105** `StopSpec.v` defines an integrator that honours a terminal event (no differentiability, no accuracy: only a continuous path on which the event function is not zero before the last returned time). `PropStop.v`: intermediate value theorem on the flight-path angle, carried through truncation and unit conversion (`C87_from_continuity`, which gives C87 from continuity, and `C105_stuck`), then along the chain of legs of C103 (`C105_lift_guided`, `C105_drag_guided`).
- **C106** `DetSpec.v` says which state a reported point shows, what it is to read initial conditions off it, and what a way to fly is (a solution that stays in the air). `DetProofs.v`: the right-hand side of the equations of motion is locally Lipschitz at every state in the air where it is defined (closure of local Lipschitz functions under the operations the code uses), then a Gronwall argument on the squared distance of two solutions, with corners. `PropDet.v`: the flights (`C106_on_the_way`, `C106_same_flight`, `C106_restart`), the chain of legs of C103 (`C106_drag_entry`), and tables as Lipschitz profiles (`C106_tables`). Witnesses in `PropDetEx.v`.
- **C107** Model: the three deflection constructors, each Approach object in two parts (common attributes, entry or fly-by attributes). Proof: the anomaly at the interface radius and at the maneuver radius are two values of the same formula, the conic at each is the Keplerian motion of ConicSpec at a hyperbolic anomaly, position and velocity determine that motion (eccentricity vector and angular momentum), so the passage times are computed and compared by monotonicity of e sinh H - H. Refuted expectation: the reported time is not the entry time.
- **C108** Model: `exit_bi`, the six terminal_*_bi attributes. Proof: components of the inertial velocity in the up/east/north frame, the flight-path-angle formula gives the horizontal speed (OrbiterProofs.fpa_horizontal), and a plane argument decides when the heading of a vector is unchanged by adding an eastward one. Refuted expectation: terminal_psi_bi is the body-inertial heading.
- **C109** Model: `link_data_volume` (the Link method on visibility and schedule objects), `print_link_budget` with `round2`. Proof: both grids are affine in the index (C15); rounding error bound of nine printed lines and the total. Refuted expectations: windows are in the visibility's clock; the printed lines add up.
- **C110** Both reported vectors are written in the frame of the conic through the burn state (oframe, placed); the turn by the difference of the arguments of periapsis is a rotation about the orbit normal; the angle statement follows from Lagrange's identity for the reported velocity at the true entry point.
- **C111** (PlotModel, PlotSpec, PropPlot): each plotting method is a figure (or an exception) and an ordered list of savefig calls; the disk is a map from file names to figures; histories are folds of calls and a crash is a prefix of a call's writes. Proved by induction over histories and by comparing reversed file names; matplotlib's refusal of the keyword `box_inches` and the existence of `../plots/` are assumptions about the library and the machine.
- **C112** Model (`StudyModel.v`): a study is a list of campaigns, each with an optional number of file operations after which its process is killed; the disk is folded through `runMonteCarlo` of `MonteModel.v`. Proof: every operation has an existing parent (`legal`), so sanity of the disk is an invariant; induction over the study with C65's crash-point theorem.
- **C113** Model (`StudyModel.v`): a campaign as the list of its file-system requests, a process that serves them one operation at a time, a schedule as a list of process numbers. Simplified: single file operations are atomic, and the parent of the main folder exists, so that `os.makedirs` is one `mkdir`. Proof: a process left alone does what `runMonteCarlo` does (`own_serve`); every request reads and writes under its main folder only (`local`); simulation of each process by its solitary run, by induction over the schedule; termination from the finite list of requests.
- **C114** Model (`SetupModel.v`): the object with every setting that may be missing as an option; each function of `SessionModel.v`, `GuidanceModel.v`, `DragModel.v` with the reads of those attributes explicit and in the order of the code. Specification (`SetupSpec.v`): kinds of setters, which call needs which, and `fills` (a fully configured object that agrees wherever something is set). Proof: every call changes what is set by exactly what it sets (`oserve_has`), induction over the history; a returning call went through each read; with all reads present the model is the total one (`enough_same`).
- **C115** cumulative_trapezoid, psuedoController and the appending of t_min with a rounding function after every operation (RunningModel.v); assumptions on it and the exact trapezoid sum in RunningSpec.v; induction on the points, commands and legs with the accumulated relative error as invariant (PropRunning.v); Flocq's binary64 as an instance by error_N_FLT and FLT_plus_error_N_ex (PropRunning64.v).
- **C116** The session of C100 with atmosphere loading, the three campaign setups and the five runs as further calls, the campaign attributes as options and the disk as part of the state (CampaignModel.v); what is in force after each call and which setups a run needs in CampaignSpec.v; agreement of two campaigns from the same configuration by induction on the runs, then on the calls (PropCampaign.v, PropCampaignEx.v).
- **C117** The conversions of TrajectoryModel.v with [rnd] after every operation (UnitsModel.v); deviations counted in roundings relative to size plus a floor (UnitsSpec.v), with one lemma per operation and a composition law, then induction on the passes (PropUnits.v); binary64 and the numbers in PropUnits64.v with Flocq.
- **C118** The characters of '%.18e' and of float() on them (TextModel.v: exact decimal rounding to 19 digits, digits, exponent, lines), the bytes on disk as the text or a beginning of it (TextSpec.v).  Nineteen digits lie within 2^-55 of the number and binary64 rounds that back; cutting by induction on the lines (PropText.v); composed with the crash theorem C65 (PropTextDisk.v).
- **C119** The scalar orbit formulas with [rnd] after every operation and the machine's power and cosine as functions accurate to two roundings (OrbitRoundModel.v); the ellipse through a state by vis-viva and angular momentum (OrbitRoundSpec.v).  One lemma per operation bounds the deviation against a scale of the quantity; the root is bounded twice, by the root of the radicand's deviation and by its quotient with the eccentricity (PropOrbitRound.v).  Binary64 numbers and the circular orbit that gives nan, computed operation by operation (PropOrbitRound64.v).  The rounding of the inertial speed and flight-path angle themselves is C121.
- **C120** (FigureModel, FigureSpec, PropFigure): a panel is two labels and a list of points; matplotlib's refusal of None and of unequal lengths is modelled.  What a flight is made of is an invariant pushed through every call of a session (SessionModel), including calls that raise half-way; the trial left behind by a search is found by induction over its bisection, the last cycle of a guided entry by an invariant of its loops.  Not modelled: scales, ticks, fonts, annotations.
- **C121** `compute_ApoapsisAltitudeKm` and `compute_PeriapsisAltitudeKm` are modelled a second time with a rounding after every operation, from the exit state on (ExitRoundModel.v); without rounding this is the model of the other properties (C121_exact). Sine, cosine, arc cosine and scalar products are arbitrary functions of stated accuracy (good_lib). Deviations are followed through the conversion to inertial velocity, the unit vectors, the arc cosine (good in the sine of the angle even where the angle itself is not) and, with C119 for the orbit of the slightly different state, to the altitudes; the factor k compares the inertial speed with the speeds it is put together from. Not included: overflow and the rounding of constants written in the code other than pi.
- **C122** Spreadsheet columns as lists of cells (whole number, other number, text, empty); column types, str(), the regular expression and date check behind pd.to_datetime with '%Y%m%d' modelled character by character (DatasetModel.v, DatasetSpec.v, PropDataset.v); calendar specified independently with divisibility; round trip of every date, refusal otherwise, effect of empty cells, order of KeyErrors, day numbers.
- **C123** numpy.interp with a rounding after every operation (TableRoundModel.v); exactness at rows and outside for any rounding, monotonicity, non-negativity and accuracy for Flocq's binary64 (PropTableRound.v, PropTableRound64.v) by succ/ulp and Sterbenz arguments; an explicit table and query whose computed density is negative.
- **C124** Vehicles sharing planet objects: a store of planet objects and vehicles with references into it (FleetModel.v); a call mounts the planet object's current state on the vehicle, runs the session model of C116 and writes the planet object back. Isolation by induction over the interleaving, from the fact that every call but atmosphere loading and campaigns leaves planet and atmosphere alone, exceptions included (PropFleet.v); the last sample's density from the campaign loop; campaigns independent of the density they find by the single-run theorem behind C63.
- **C125** Continuous dependence. `NearSpec.v` says what nearby starts, vehicles, atmospheres and integrators and nearby reports are (the integrator's error is the defect of a curve through its values). `NearProofs.v`: the right hand side changes by at most a multiple of eta near every state inside the atmosphere; Gronwall's inequality for the squared distance (with a derivative that need only exist off finitely many times); a first-exit argument keeps both curves where the right hand side is Lipschitz; a supremum argument extends the estimate to the whole way. `PropNear.v` carries it over to what the two propagations store. `PropNearTop` extends it to flights that start exactly at the top (C132), through `near_passage` of C131.
- **C126** existence of the exact flight. `ExistSpec.v` says when a state is a margin away from ground, top, standstill, poles and the singular attitude. `Picard.v` proves the Picard–Lindelöf theorem for bounded, globally Lipschitz fields by contraction on Coquelicot's integral. `ExistProofs.v` clamps the right hand side of the equations of motion (C39) to a box around a regular state, where `field_near` (C106) makes it Lipschitz, gets solutions that last a common time from all starts near that state, glues them, bounds the right hand side on the clear region, and continues the solution past the supremum of the times reached; the Jacobi energy (C104) bounds the speed when drag brakes. An exact integrator is then built from the unique solution, by taking suprema of one-element sets of numbers; so the hypothesis `exact` of C104, C106 and C125 is met by an integrator that succeeds on flights in real air and not only on the closed-form orbits of their witnesses. `C126_exists`, `C126_until`, `C126_flies_on`, `C126_ideal`.
- **C127** `HeatIntSpec.v` defines the heating rate of a state, the speeds at which the radiative law jumps, and the heat absorbed so far as a continuous function with that derivative off the jumps. `Trapezoid.v`: for a rate in finitely many uniformly continuous pieces the integral exists (Coquelicot's `RInt`), is unique, and trapezoid sums converge to it evenly in time; steps with a jump contribute at most (number of jumps) * step. `HeatIntProofs.v` splits the laws of all eight planets into continuous pieces (from C88). The points of a flight are on the way (C106), their rates are those of the laws (C86), their load is the trapezoid sum (C46).
- **C128** `PeakSpec.v` lists five quantities, what a stored flight says of each at a point and what it is in a state. A point says what the state of the way at its time is (C86, C106); along the way each quantity is continuous (heating between jumps, from the pieces of C127; net load where its radicand is positive), so some sample just before the peak is close to it. Peaks exist by compactness.
- **C129** Exit and trap states. `ExitSpec` says what leaving and sinking mean for a solution of the equations of motion. The density jumps at the top, so uniqueness (C106) does not reach past it; `ExitProofs` compares the vehicle with two others, one in an atmosphere continued by its top value (for the time before the exit) and one without air (after), to bound the rates of change near the exit state uniformly over all solutions; so every exact solution is above the top for a common time, and the first sample above it is the first one after T (`C129_exit`, `C129_flagged`; `C129_trap`, `C129_trap_flagged`). Existence (C126) applied to the same two vehicles gives flights that reach every exit state (`C129_reached`) and exactly one continuation past the top, hence a run (`C129_flown`). The apsides are a continuous function of the exit state away from zero energy (closed form of C52, the eccentricity a square root of a locally Lipschitz function), so those of the last point converge (`C129_orbit`).
- **C130** Verdicts on true flights. `VerdictSpec` says when a solution of the equations of motion is too high, too low or lost, with apoapsis and energy from `OrbitSpec`, and what a boundary is. `VerdictProofs` shows that a propagation that lasts past the exit (or past the trap altitude) is flagged so, also when it goes on above the atmosphere, by comparing with a vehicle in vacuum. `PropVerdict`: the two verdicts are open conditions on the exit state (energy and apoapsis are continuous in it), so by C129 the last stored point gets the same verdict for small steps (C130_answer, C130_answer2, C130_captured). A bisection only asks about angles that divide its bracket in 2^n parts; the predicate restricted to these runs the same search, so one step bound serves all questions (C130_limit, C130_boundary, C130_width). URANUS: C130_uranus (no exactness needed) and C130_uranus_lost. Version 2 is stated for a given classification because solve_ivp may return fewer points than asked for.
- **C131** Nearby flights. The vocabulary is that of C125 (`NearSpec`: nearly solving curves, nearby vehicles and starts) and C130 (`VerdictSpec`). `NearExitProofs` extends the C125 comparison (Gronwall) past the exit: before it, the nearby curve is compared with the nominal one for a vehicle whose density is frozen above the top; around the exit both climb at no less than a fixed rate, so the nearby one crosses the top within a small time; after it they are compared in vacuum until the nominal flight's stay outside ends. Likewise through the trap altitude. `PropNearExit`: flags and last points (C131_exit, C131_flagged, C131_trap, C131_trap_flagged). `PropNearVerdict`: verdicts, searches and widths (C131_answer, C131_answer2, C131_captured, C131_limit, C131_boundary, C131_width). Starts exactly at the top of the atmosphere, descending, are included (`near_passage`: for a short time both curves descend, so the nearby one is inside once the comparison begins). Nearby starts above the top are excluded (`starts_near`), because the classification ends such a flight at its first point. The extra vocabulary is in `NearExitSpec`. Witnesses (`PropNearExitEx`): nearby vehicles of other lift, starts and bank angles as near as one likes; flights from inside that leave, are too high, too low or lost, with an ideal integrator that flies them; a search that starts below the top of the atmosphere of Venus.
- **C132** Starts at the top. `ExitSpec.passage` allows a flight to start exactly at the top of the atmosphere, descending. `EnterProofs` shows that any solution from there is below the top for a while (`falls_in`; it could only stay up by climbing), so it also solves the equations of a vehicle whose density is frozen above the top (`capped`), where C126 gives existence and C106 uniqueness; from then on C106 applies to the vehicle itself. `PropEnter`: C132_enters, C132_only, C132_on_the_way, C132_same_flight, C132_ideal; `PropEnterRun`: C132_flown. C129 and C130 are stated over these passages. Witness: entry into Venus at 180 km, 11 km/s, 8 degrees down, flown by both versions.
- **C133** Shallow entries. `GrazeSpec.bends`: the rate of change of the flight-path angle that the equations of motion give for a level flight at the top. `GrazeProofs`: around the level state the rate keeps its sign and all rates are bounded (C126 and C106), so all nearby flights exist for a common time and bend the same way (`bending_flow`); with an upward bend the loss of height is of second order in the entry angle and is made up before that time is over (`skips`), with a downward bend the descent goes on (`digs`). `PropGraze`: C133_skips, C133_flagged, C133_flown, C133_verdict, C133_answer, C133_digs_in, and C133_criterion for starts on the equator. Witness: Venus, 11 km/s with lift up leaves again and overshoots every target (also a C131 start exactly at the top); 3 km/s with lift down digs in.
- **C134** Nearby starts and the limits of the corridor. `FlowProofs`: along a flight inside the air the local flows of C126 can be continued for all starts close enough (completeness of the reals, and the estimate of C125 for what has been flown so far), hence `near_flow`; `flow_passage` carries that to starts at the top. `FlowExitProofs`: the flow past the exit is the one of the planet without air (`flow_above`), joined to the flow before it (`flow_out`); crossings of the trap altitude are transversal (`flow_sinks`). So each verdict of C130 is open in the start (`C134_stable`), two exclude each other (`C134_single`), and the supremum of the angles up to which the first verdict holds has none (`C134_turns`). With C131_limit this is what the searches return to within the tolerance. Not claimed: that there is only one such angle in the interval.
- **C135** What the instruments read near a flight. `PropNearLoads`: limits along a family of ever closer flight points (`tends`, `otends` for values that may be NaN) are closed under sums, products, quotients, powers, roots and continuous functions; altitude, speed, bank, areas, nose radius, density and pressure tend to those of the exact flight (C125 and the Lipschitz profiles), so the formulas of C86 do as well. A flight has finitely many points, so one allowance serves all of them. EARTH's radiative table is continuous from 9 km/s on by C03; at the speeds of `heat_breaks` the correlations jump and nothing is claimed. Nothing is claimed either where the net load is exactly 0, next to which it may be NaN.
- **C136** Peaks of nearby flights. `NearPeakSpec` says where a gauge of C128 has no jump along a flight. `PropNearPeak`: around every time there is an allowance within which the reading of any vehicle beside the flight is within `eps` of the true value (the limits of C135 and the continuity of the flight); finitely many such neighbourhoods cover `[0, T]` (`common_over`, by the least upper bound), so one allowance serves all times, and C125 from the top keeps nearby reports beside the flight. The lower bound uses the last reported time up to `t0`. Witness: the steep entry of C126, banked by 30 degrees, for every gauge.
- **C137** Heat loads of nearby flights. `PropNearHeat`: the heating rate is continuous along the flight (the limits of C135 applied to the flight itself), so the integral exists by the construction of C127 (`Trapezoid`), also from the top, where C127 does not reach. One allowance (`common_over`) makes every nearby reading within `c` of the true rate and the true rate vary by less than `c` over a step; by the mean value theorem each trapezoid of C46 is then within `2 c dt` of the increase of the integral, and the sum within `2 c` times the duration. Witness: the steep entry of C126.

## Trusted base

1. **Coq's kernel** (8.16.1), `coqc` and the standard library. `vm_compute` is not used on property theorems; no
   kernel check is switched off; no axiom, `Admitted`, functor, module type or plugin is added.
2. **Axioms.** Only the standard library's, through its real numbers (`Reals`) and classical reasoning:
   - `ClassicalDedekindReals.sig_forall_dec`, `ClassicalDedekindReals.sig_not_dec` (construction of R),
   - `FunctionalExtensionality.functional_extensionality_dep` (construction of R),
   - `Classical_Prop.classic` (used by `Rpower`, `sqrt`, trigonometric lemmas and derivatives).
   Flocq is used for the definition of binary64 rounding in `PropRound64.v`, Coquelicot for integrals in `Picard.v` and
   `Trapezoid.v`; they bring no axiom of their own.
   The per-theorem list is below; it is regenerated from the output of `Assumptions.v`.
3. **The model is the code.** The definitions of the `*Model.v` files were written by reading `/repo` as text; each
   carries the lines it models. Nothing machine-checks that step. In particular:
   - **Real numbers for floats.** Overflow and signed zeros are not modelled; rounding is modelled only where
     C96-C98, C109, C115, C117-C119, C121 and C123 say so (bisection, grids, angles, sums, units, exit orbits, table lookup, text). What is modelled of
     floating point is where a result stops being a finite number: division by zero, square roots and
     logarithms of negative numbers, `arccos` outside [-1,1], ... give `None` (numpy) or an exception (Python).
   - **Library behaviour.** `Numpy.v` models `interp1d(kind='linear')`, `argmax`, `argmin`, `np.abs`, slices,
     `linspace`, `arange`, `append`, boolean masks, `cumulative_trapezoid` and their exceptions as documented for
     the versions of `/repo/uv.lock` (numpy 2.4.2, scipy 1.17.1); `np.float` no longer exists there and
     `cumulative_trapezoid` accepts only `initial` 0 or None.
4. **Universally quantified engines.** The theorems hold for whatever these return, so nothing about them is trusted
   beyond their type; where a property needs more, the hypothesis is in the theorem's statement:
   - the ODE solvers (`odeint`; `solve_ivp` with its event): an arbitrary function from the problem to a list of
     states, or failure, which returns one state per time and the initial state first (`engine_ok`). The theorems
     about the equations themselves (C38-C40) quantify over all differentiable solutions; C104, C106 and C127
     assume in their statements that the solver makes no error (`exact`; C126 constructs such a solver, C125 and C135-C137 bound what
     an error changes), C87 and C105 that it honours the event (`stops`);
   - the interpolants of an atmosphere when their kind is not linear; `loadtxt` of atmosphere files;
   - `scipy.optimize.newton` for Kepler's equation (C35): any value, or an exception;
   - time and frame conversions of `astropy` (visibility);
   - random numbers: an arbitrary stream. No theorem is about distributions;
   - user-supplied callables (drag and lift coefficients as functions of Mach number);
   - the file system: a state changed by a list of operations; a crash leaves any prefix, and a file being
     written may be left half written.

### What Print Assumptions lists for each theorem

<!-- assumptions: begin (generated by tools/assumptions.py) -->

Closed under the global context (no axioms) (10 theorems):

C43_truncation, C60_view_is_the_vehicle, C72_setting_changes_nothing_else, C100_what_is_seen, C111_shared_names, C111_names_apart, C111_names_apart_refuted, C122_unpadded, C122_axis, C122_order.

`ClassicalDedekindReals.sig_forall_dec` (5 theorems):

C122_reads, C122_eight_digits, C122_blank, C122_blank_among_text, C122_missing.

`ClassicalDedekindReals.sig_forall_dec`, `FunctionalExtensionality.functional_extensionality_dep` (69 theorems):

C03_table_lookup, C03_between_neighbours, C03_lipschitz, C05_altitude_radius, C06_standard_gravity, C07_sigma_profiles, C07_profile_monotone, C07_file3_ordered, C07_file2_columns, C07_profile_values, C08_blocks_tile_the_file, C09_scale_height_ignores_argument, C10_launch_mass, C11_axis_floor, C15_schedule, C15_window_order_irrelevant, C15_permutation, C15_degenerate, C16_data_volume, C16_defined, C16_error, C42_total, C55_one_cycle, C55_change, C55_overshoot, C55_never_settles, C55_chatters, C55_settles_on_lattice, C56_range, C56_range_sharp, C62_effect, C85_linear, C85_check_grid, C86_mach, C86_profiles, C86_units, C88_complete, C89_total_load, C89_nan_hidden, C96_exact, C96_limit_is_a_boundary, C96_terminates, C96_too_fine, C97_time_grid, C99_density_file, C106_tables, C109_schedule_clock, C109_windows_are_stretched, C109_clock_refuted, C111_saved, C111_mass_vs_TOF_never_saved, C111_file_shows_last_call, C111_other_files_untouched, C111_colorbar_plots_overwrite, C111_crash, C111_points_shown, C111_drawn_when, C111_what_is_drawn, C115_exact, C115_total, C115_bank_band, C115_bank_lattice, C115_clock, C115_factor, C117_many_restarts, C117_first_sample, C117_hand_over, C123_exact, C123_nodes.

`ClassicalDedekindReals.sig_forall_dec`, `ClassicalDedekindReals.sig_not_dec`, `FunctionalExtensionality.functional_extensionality_dep` (69 theorems):

C01_density_every_altitude, C01_density_bounded, C02_scalar_vector_agree, C02_scalar_vector_differ_outside, C04_nondim_round_trip, C04_scaled_radius, C05_plot_units_injective, C05_plot_units, C06_catalogue, C06_constants, C06_surface_gravity, C09_scale_height_value, C09_below_surface, C09_measurement_ignored_refuted, C18_occultation_exact, C20_frame_changes_are_rotations, C20_lengths_kept, C20_pole_becomes_z, C37_aero_decomposition, C37_vectorised_is_scalar, C38_gravity_is_gradient, C38_projections, C39_jacobi_rate, C40_rotating_newton, C40_polar_momentum_rate, C40_vacuum_momentum_not_conserved, C40_defined_iff, C41_same_accelerations, C41_si_newton, C42_classification, C42_retained, C42_horizon_matters, C44_load_formula, C44_vehicle_load, C52_elements, C54_periapsis_raise, C54_apoapsis_raise, C54_monotone, C54_below_centre, C61_reproduces_measurements, C61_extrapolates_exponentially, C61_held_outside, C61_positive, C72_user_drag_law_raises, C73_time_grid, C81_lift_turns, C83_longitude, C83_mirror, C83_which_planets, C83_odd_term_breaks_it, C85_rows, C85_sound, C85_outside, C85_all_or_nothing, C85_succeeds_iff, C85_check_error, C95_orbiter_times, C95_orbiter_distances, C95_same_body_orbiter, C95_orbiter_raises, C99_measured, C117_exact, C119_exact, C119_orbit, C119_apsides, C120_profiles_fail, C120_profiles, C120_profiles_interval_refuted, C133_criterion.

`ClassicalDedekindReals.sig_forall_dec`, `ClassicalDedekindReals.sig_not_dec`, `Classical_Prop.classic`, `FunctionalExtensionality.functional_extensionality_dep` (369 theorems):

C12_link_budget, C12_margin_trends, C13_receiver_diameter_unused, C13_receiver_gain, C14_link_fails_exactly_when, C14_isotropic_rejected_refuted, C17_look, C17_lander_to_planet, C17_lander_to_orbiter, C17_rotation_phase, C19_time_grid_direction, C19_retrograde_data_volume, C21_hyperbola_well_formed, C21_constructor_errors, C21_zero_velocity_silent, C22_periapsis_targeting, C23_energy_and_angular_momentum, C24_elements_reproduce_vectors, C24_equatorial_undefined, C24_h_vector_magnitude_refuted, C25_entry_interface, C26_atmosphere_relative_velocity, C27_b_plane, C27_pole_undefined, C27_B_vector_magnitude_refuted, C28_probe_orbiter, C28_inside_periapsis_undefined, C28_orbiter_orbiter, C28_legs_are_approaches, C29_probe_time_of_flight, C30_second_probe_angle, C30_same_radius_refuted, C31_orbit_states, C32_velocity_always_outward, C33_requested_apsides, C34_capture_orbit, C34_insertion_dv, C34_dv_decreasing, C34_entry_approach_raises, C35_timed_trajectory, C35_kepler_motion, C35_root_failure_raises, C36_targeting_raises_iff, C36_fresh_orbiter, C36_deflection_raises_iff, C36_stale_entry_anomaly, C36_enters_meaning, C36_some_burn_enters, C39_dissipation, C39_vacuum, C43_flight_aligned, C43_empty_flight_raises, C45_heating_nonneg, C45_heating_defined, C45_heating_undefined, C45_nose_radius_scaling, C45_no_radiation, C45_total_is_sum, C45_venus_jumps, C45_earth_jump, C46_heat_load, C46_continued_load_fails, C46_same_when_zero, C47_sweep, C47_sweep_interrupted, C48_limit_is_a_boundary, C48_terminates, C48_rounds_exact, C48_unique_boundary, C48_never_ends_without_tolerance, C49_restored, C49_narrow_bracket_raises, C49_crash_leaves_trial_angle, C50_width, C50_failure_is_silent, C50_true_width, C50_drag_width, C51_captured, C51_hits_target, C51_hits_target2, C51_gas_giants_raise, C51_gas_giant_searches_raise, C51_inertial_capture_refuted, C52_reported_apsides, C53_inertial_velocity, C53_orbiter, C56_glide_bank, C56_guided_bank, C56_exit_levels, C57_range, C57_law, C57_no_air, C58_how_it_ends, C58_what_continues, C58_switch_irrelevant, C58_slow_start, C58_never_ends, C58_drag_how_entry_ends, C58_drag_how_exit_ends, C58_drag_switch_irrelevant, C59_glide_arrays, C59_exit_arrays, C59_guided_arrays, C59_times, C59_junctions, C59_exit_junctions, C59_drag_arrays, C59_drag_times, C59_drag_junctions, C60_undisturbed, C60_vehicles_same, C60_prediction, C60_prediction_jettison, C62_queries_reconfigure, C62_LD_has_no_effect, C62_parameters_required, C63_runs_as_if_alone, C63_prefix_of_longer, C64_drawn_LD_not_flown, C64_LD_recorded, C64_drag_beta1_unused, C64_drag_earth_beta1_unused, C65_any_crash_point, C65_after_exception, C65_existing_folder, C65_no_restart, C66_heading_formula, C66_heading_refuted, C67_exit_state, C67_no_points_raises, C67_coast_starts_at_exit, C67_inbound_exit_refuted, C68_periapsis_raise_dv, C69_escaping_vehicle_silent, C69_equatorial_undefined, C70_probe_plane, C70_gap_iff, C70_entry_on_boundary, C71_gamma_atm_is_inertial, C71_inertial_entry, C74_glide_heat_restarts, C74_exit_heat_restarts, C74_drag_heat_restarts, C75_version2_needs_no_heat, C75_prediction_needs_no_heat, C75_drag_version2_needs_no_heat, C75_drag_version1_ignores_heat, C76_entry_cycle, C76_first_second, C76_exit_cycle, C76_left_behind, C76_flight_independent_of_the_past, C77_initial_state_overwritten, C77_drag_initial_state_overwritten, C78_draws_in_range, C78_bad_setup, C79_later_state_ignored, C79_last_atmosphere_left, C80_mass_and_area, C80_same_nose_radius, C81_ballistic_ignores_bank, C81_bank_is_an_angle, C82_only_air_inside, C84_configuration, C84_no_memory, C84_as_good_as_new, C84_stored_flight, C84_after_exceptions, C84_propagations_keep, C86_every_point, C86_ballistic, C87_never_steeper, C87_from_continuity, C88_convective, C88_radiative, C88_earth, C88_monotone, C89_records, C90_first, C90_glide_cycle, C90_drag_cycle, C90_exit_cycle, C90_measured_density, C90_drag_measured_density, C90_underestimates, C91_report, C91_meaning, C91_prediction, C92_orbit_array, C92_coast_array, C92_propulsive_array, C92_probe_array, C92_deflection, C93_entry_place, C93_entry_heading, C94_vacuum, C94_entry_above_the_air, C95_range, C95_lander_grid, C95_same_body_lander, C95_saturn_from_titan, C96_binary64, C96_spacing, C97_binary64, C98_past_one, C98_zenith_fragile, C99_zero_step, C99_no_duration, C99_no_duration_1, C100_no_memory, C100_configuration, C100_reset, C100_shared_parameters, C101_path_at_clock_angle, C101_aim_point, C101_axes, C101_beta_refuted, C102_constructor_attributes_stay, C102_calls_do_not_interfere, C102_release_as_on_a_fresh_orbiter, C102_deflection_as_on_a_fresh_orbiter, C103_lift_flight, C103_drag_flight, C104_steepest, C104_energy_never_up, C104_lift_guided, C104_drag_guided, C105_stuck, C105_lift_guided, C105_drag_guided, C106_on_the_way, C106_same_flight, C106_restart, C106_drag_entry, C107_probe_time_is_to_periapsis, C107_first_probe_time_is_to_periapsis, C107_entry_time_refuted, C108_exit_state_bi, C108_heading_refuted, C109_margin_ignored, C109_printed_budget, C109_printed_sum_refuted, C110_entry_state, C110_two_angles, C112_nothing_overwritten, C112_results_survive, C113_as_if_alone, C113_completed_runs, C113_all_end, C113_same_folder, C114_set_before, C114_enough, C114_no_initial_state, C114_no_tolerance, C114_target_late, C114_no_initial_state_drag, C114_no_switch, C114_no_roll_rate, C114_no_gains, C114_two_orders, C114_later_counts, C114_any_order, C115_binary64, C116_no_memory, C116_configuration, C116_reset, C116_needs_setup, C116_setups_mix, C116_own_setup, C116_wrong_setup, C117_constants, C117_binary64, C118_number, C118_lines, C118_file, C118_faithful, C118_cut_off, C118_misread, C118_detected, C118_after_crash, C119_binary64, C119_circular_nan, C120_entry_plots, C120_after_limit, C120_guided_shows_last_cycle, C120_guided_drag_shows_last_cycle, C120_qplot, C121_exact, C121_state, C121_apsides, C121_binary64, C123_between_rows, C123_never_negative, C123_falling_profile, C123_accuracy, C123_negative_refuted, C124_as_if_alone, C124_campaigns_elsewhere, C124_atmosphere_is_shared, C124_constants_are_shared, C124_campaign_reaches_the_others, C124_campaign_unaffected, C125_near_the_way, C125_nearby_flights, C125_from_the_top, C125_nearby_from_the_top, C126_exists, C126_until, C126_flies_on, C126_ideal, C126_flown, C127_integral, C127_load_is_integral, C128_points, C128_peaks, C128_peak_exists, C129_exit, C129_flagged, C129_trap, C129_trap_flagged, C129_reached, C129_flown, C129_trap_reached, C129_trap_flown, C129_orbit, C130_answer, C130_answer2, C130_uranus, C130_uranus_lost, C130_limit, C130_boundary, C130_width, C130_captured, C131_exit, C131_flagged, C131_trap, C131_trap_flagged, C131_answer, C131_answer2, C131_limit, C131_boundary, C131_width, C131_captured, C132_enters, C132_only, C132_on_the_way, C132_same_flight, C132_ideal, C132_flown, C133_skips, C133_flagged, C133_flown, C133_verdict, C133_digs_in, C133_answer, C134_flights, C134_leaves, C134_stable, C134_single, C134_turns, C134_on_target, C134_hits, C134_limit, C134_width, C135_loads, C135_heating, C136_peaks, C137_integral, C137_heat_load.

<!-- assumptions: end -->

## What is modelled

| file of /repo/AMAT | model | left out |
|---|---|---|
| planet.py | PlanetModel.v (constants, scale factors, density/temperature/pressure/sonic speed in scalar and vector form, Monte Carlo profiles, scale height), AtmosphereModel.v (`loadAtmosphereModel` as a state transformer, the grid and samples of `checkAtmProfiles`), FigureModel.v (its four panels) | scales and ticks of the plots |
| launcher.py | LauncherModel.v | - |
| interplanetary.py | LauncherModel.v (axis limits, launch capability column), PlotModel.v (figures drawn, files saved), DatasetModel.v (reading of the spreadsheet and its dates) | fonts, ticks, grid of the plots |
| telecom.py | TelecomModel.v | the printed lines without a decibel value |
| visibility.py | VisibilityModel.v, FrameModel.v | plots; astropy is an oracle |
| approach.py | ApproachModel.v, ApproachFrameModel.v, FrameModel.v | plots |
| maneuver.py | ManeuverModel.v | - |
| orbiter.py | OrbiterModel.v, OrbitScalarModel.v | plots |
| vehicle.py 1-1671 (constructor, force model, equations of motion) | AeroModel.v, HeatModel.v | - |
| vehicle.py 1673-2983 (propagation, loads, heating, orbits) | TrajectoryModel.v, OrbitModel.v, OrbitScalarModel.v, OrbitRoundModel.v (the orbit formulas with rounding), HeatModel.v | printing, plots |
| vehicle.py 2985-4216 (predicates, corridor searches) | CorridorModel.v, RoundModel.v (the bisection and the output grid with rounding), RunningModel.v (cumulative_trapezoid, psuedoController and the guided clock with rounding), UnitsModel.v (unit conversions with rounding) | printing |
| vehicle.py 516-576, 3744-3757 (setters) and sequences of calls | SessionModel.v | - |
| vehicle.py 4519-4528, 4672-4688, 4762-4790, 5954-5977 (guidance setters) and sequences with guided flights | GuidedModel.v; SetupModel.v for objects whose setters have not all been called; CampaignModel.v with campaigns as calls | - |
| vehicle.py 4456-5668 (lift-modulated guidance) | GuidanceModel.v, HeapModel.v (object identity of the copies) | printing |
| vehicle.py 5671-5950, 7295-7776 (Monte Carlo) | MonteModel.v, StudyModel.v (several campaigns, processes), TextModel.v (characters of the number files) | infinities and the sign of zero in files; printing; path strings are lists of components |
| vehicle.py 5954-7291 (drag-modulated guidance) | DragModel.v | printing |

Simplifications made in a definition are stated in its comment. The main ones: attributes that are only printed are
left out; an attribute that was never assigned is modelled where a property depends on it (`heatRate`, entry anomaly,
`h_low` of Jupiter and Saturn, `hdotref_array`) and otherwise assumed assigned; NaN anywhere in a vector makes the
vector `None`; the signs of zeros are not tracked.

## Findings

Places where the code does not do what its documentation or a reader would expect. Each is a proved theorem (the
property is in parentheses), usually with the exact actual behaviour and, where useful, a `_refuted` counterexample.

- **Planet.** Scalar and vector density differ outside the measured range (C02). `scaleHeight` ignores its argument
  (C09). Monte Carlo profiles are not clipped: large deviations give negative density (C07).
- **Telecom.** The receiver's diameter is not used for its gain (C13). A 0 dBi antenna gain is rejected as missing (C14).
- **Visibility.** Time grids of retrograde rotators run backwards (C19).
- **Approach.** An equatorial approach gives NaN orientation angles (excluded in C24). The entry longitude is off by pi
  when x < 0, so the atmosphere-relative velocity has the wrong sign of the rotation there (C26). The velocity is inward at
  every anomaly (C23). The reported heading is arccos(cos gamma cos chi) (C66).
- **Maneuver.** The second probe of a probe-probe manoeuvre is given a velocity from the wrong point (C30); a transfer
  by a multiple of pi has no solution (C28).
- **Orbiter.** The tangential velocity is divided by 1.0000001 (C31); the velocity points outward on the inbound half (C32);
  an exit with negative inertial flight-path angle starts at the mirrored anomaly (C67); hyperbolic and equatorial
  exits are accepted silently (C69); probe targeting without atmospheric entry raises or uses a stale anomaly (C36); the probe
  trajectory does not start at the burn point (C70); the probe's relative flight-path angle is the inertial one (C71).
- **Flight.** Three denominators of the heading rate use cos(gamma)+0.01 (C40). User-defined drag always raises
  with the pinned numpy (C72). The load uses 2*a_w where a_w^2 is meant (C44). Radiative heating jumps at the fit
  boundaries for Venus and Earth (C45). A non-zero initial heat load raises (C46). A nose-radius sweep that fails keeps
  the first radius (C47). The classification depends on the simulated horizon (C42).
- **Atmosphere.** A load that raises part-way leaves the raw `ATM_*` arrays replaced while the profile functions are the old
  ones; `checkAtmProfiles` samples at an interval of dh*n/(n-1), not dh (C85).
- **Corridor.** The search raises UnboundLocalError when the bracket is already within tolerance (C48); with a
  tolerance of zero it never ends; for Jupiter and Saturn it always raises (C49); the width ignores the exit
  flags (C50); drag-modulation queries leave their beta and CD on the vehicle (C62, C51).
- **Orbit queries.** A hyperbolic exit reports an apoapsis altitude below minus the planet's radius (C52); capture is
  decided on the planet-relative velocity (C51).
- **Guidance.** With scipy 1.17 version 2 raises in the first cycle that starts with a non-zero heat load, and
  lift-up prediction raises when the heat load is not zero (C75). The heat load restarts in every cycle (C74). The initial
  state is overwritten (C77). The exit phase does not extend the recorded drag history, and its reference-altitude-rate
  array may be stale (C59). The speed switch never ends the glide phase (C58). The command can be NaN (C55).
- **Drag modulation.** The exit configuration (beta1*betaRatio) stays on the vehicle (C76).
- **Probe entry geography.** Longitude is `arctan(y/x)`: an entry with x < 0 gets a longitude half a turn off, the velocity of
  the air is then added instead of removed, and the heading is the supplement; on a polar entry all are NaN (C93).
- **Deflection trajectory.** Positions after an orbiter deflection use the orbiter's argument of periapsis with the deflected
  orbit's other elements, so the drawn orbit is turned about its normal by the difference of the two (C92).
- **Bank command above the air.** `propogateEquilibriumGlide` divides by the dynamic pressure. Where the density
  is exactly zero and the vehicle descends faster than circular speed, the command is inf - inf = NaN, and the
  saturation does not catch it (C94).
- **Saturn seen from Titan.** Titan is looked up as Saturn, so `LanderToPlanet("SATURN", "TITAN", ...)` works with
  a NaN direction: range 0, never visible; `OrbiterToPlanet` with the same bodies reports always visible (C95).
- **Tolerance below machine spacing.** The corridor searches loop for ever when the tolerance is below the spacing of the
  floats in the interval (2^-49 degrees for angles of at least 8 degrees), although exact arithmetic would end (C96).
- **Overhead target.** Any rounding of the zenith product past 1 makes a target straight overhead NaN and not visible (C98).
- **One-sample schedules.** A visibility array or schedule of one entry counts for every sample of the time grid, by numpy
  broadcasting, instead of being rejected (C16).
- **Scale height below the surface.** `scaleHeight` one to two kilometres below the reference surface slices its grid with
  -1 and returns 0 for every atmosphere (C09); from the top whole kilometre upwards it raises, and with it the guidance
  that builds a measured density function from altitudes all above that (C99).
- **The version-2 stop is a wall, not a floor (C87, C105).** `hit_EFPA_90` stops version 2 at a flight-path angle of -88 degrees from either side: a flight that starts steeper is integrated past vertical without being stopped until it climbs back to -88 degrees, where it is cut; a start at exactly -88 degrees returns one point.
- **Probe time of flight.** `TOF_probe` and `TOF_probe1` are documented as the time to the atmospheric entry interface, and are the time to the (vacuum) periapsis; the probe reaches the interface earlier (C107).
- **Exit heading.** `terminal_psi_bi`, documented as the body-inertial heading at atmospheric exit, is the planet-relative heading (C108).
- **Data volume and printed budget.** `compute_data_volume` never looks at `schedule.t_array`, so a schedule of another duration is silently stretched; `print_link_budget` does not print the DSN loss it subtracts (C109).
- **Approach attributes.** `beta`, documented as the true anomaly of the outgoing asymptote, is pi minus it (C101); `B_vec_bi` and `h_vec_bi` have the right direction but not the documented size (C27, C24).
- **Probe entry state.** `pos_vec_bi_probe` (orbiter.py:442) adds the orbiter's argument of periapsis to the anomaly, `vel_vec_bi_probe` (orbiter.py:538) the probe orbit's. The reported entry position and velocity therefore belong to two orbits that differ by a rotation in the orbit plane; the entry latitude, longitude and atmosphere-relative angles inherit it (C110).
- **Trade-study plots.** `plot_launch_mass_vs_TOF` passes `box_inches='tight'` to savefig (interplanetary.py:340); matplotlib has refused unknown keywords since 3.5, so the method always ends in TypeError and saves nothing (C111_mass_vs_TOF_never_saved). The two colour-bar plots leave the launcher's name out of the file name (287-289, 410-412): comparing two launchers on one dataset overwrites the first plot (C111_colorbar_plots_overwrite). With underscores in the names, plots of different dataset and launcher can also share a file (C111_names_apart_refuted).
- **Forgotten target orbit.** A guided flight without setTargetOrbitParams that starts below the switch speed is flown to the end
  and raises AttributeError only in its report, with the stored trajectory and initial state already replaced (C114_target_late).
- **Campaign settings.** The three campaign setups write the same attributes, so a later setup of another kind changes
  what a run uses; a campaign set up after a guided flight starts from that flight's last state; a run without its setup
  leaves an empty folder that blocks the next attempt, and a drag run after a lift setup leaves the drawn density (C116).
- **Truncated result files.** If the process dies while a summary file of a campaign is being written, reading the file may raise no exception and yet give a wrong last number (the digits that were written so far); this happens for every column whose last number exceeds 10 in size (C118_misread).
- **Circular orbits.** The eccentricity is the root of a rounded difference that should be zero for a circular orbit; when it comes out as a small negative number the eccentricity, and with it the apoapsis and periapsis altitude, is nan (C119_circular_nan: the Earth, 4311 km altitude). Otherwise near-circular orbits are reported with an eccentricity error of up to 1e-7.
- **Figures show the last propagation (C120).**  `makeBasicEntryPlots` draws whatever was propagated last.  After
  `findOverShootLimit` and the like that is a trial entry at another angle than `gamma0_deg`, and after
  `propogateGuidedEntry` it is the last guidance cycle only, with its clock at zero; the arrays ending in `_full` hold the
  trajectory but are not drawn.  `createQPlot` silently replaces the stored results, and its fixed axes (100 to 700 km)
  show almost nothing of an entry at Earth or Mars, which begins at 120 km.  `checkAtmProfiles(dh)` accepts a `dh`
  larger than the atmosphere (or below minus it) and draws nothing.
- **Exit altitudes and vertical motion (C121).** The flight-path angle is computed as 90 degrees minus an arc cosine of a scalar product of rounded unit vectors.  That product is only known to be within about 2e-12 of the sine of the angle, so for nearly vertical motion it may exceed 1, and the altitudes are then nan; nothing in the code clips it.  Everywhere else the error of the angle, large as it can be near vertical, does not reach the altitudes.
- **One empty launch date spoils the sheet (C122).** pandas turns a column of whole numbers with an empty cell into floating-point
  numbers, so `str` gives "20310514.0" and pd.to_datetime with '%Y%m%d' raises ValueError: a single empty cell in Lcdate makes
  the constructor of Interplanetary fail, whatever the other rows hold. Dates written without zeros are not refused: 2031111 is
  read as 1 November 2031. Sheets without one of the columns Lcdate, LC3, TOF, Avinf raise KeyError.
- **Rounding below zero (C123).** numpy.interp evaluates slope*(x - x0) + y0, which can pass the next tabulated value by a
  rounding. With whole-metre altitudes and a row at zero this never makes a density negative (all Monte Carlo files shipped
  are of this kind); with rows at -2000 m and 1000 m and densities 7 and 0 the density at the last number below 1000 m is
  -2^-50, and the convective heating computed from it is nan.
- **Shared planet objects.** A Vehicle keeps a reference to its Planet (vehicle.py:352), and a Monte Carlo campaign overwrites that object's density (vehicle.py:5784, 5889, 7498, 7605, 7720) without restoring it. Every other vehicle made with the same object then silently flies through the campaign's last sampled density, mixed with the nominal temperature, pressure and sonic speed (C124_campaign_reaches_the_others, C124_witness). All other calls keep vehicles apart (C124_as_if_alone).
- **A fast plunge into URANUS counts as flying away.** `h_low`, below which hitsTargetApoapsis answers 1 regardless of the orbit, is 10 km
  at URANUS, the same as `h_trap` where a flight is cut off (planet.py:205-206); elsewhere it is 5 to 10 times higher. The last kept point of
  a lost flight is at or above `h_trap`, so the rule never applies there and the flight is judged by the orbit its last point would be on
  (C130_uranus). A flight that is still hyperbolic at 10 km gets -1, "hits the target or flies away" (C130_uranus_witness).
- **Starts at and above the skip altitude.** A start above the skip altitude is flagged as exited at its first sample, truncated to no samples, and the call raises. A start exactly at the skip altitude is flown (C132), except when the lowest sample of its flight is exactly at the trap altitude: then the flag is -1 with index 0 and the call raises.
- **Guidance records.** Every step array starts with an artificial zero, so the first climb acceleration is the climb rate
  divided by the elapsed time; the net load is recorded twice per glide cycle; the measured density mixes the drag at the
  end of a cycle with the mean speed, so it is below the true density whenever the vehicle decelerates (C90).
- **Monte Carlo records.** Python's max skips a NaN that is not in front, so a flight whose load or heating becomes NaN is
  recorded with the maximum of its finite part; the version-2 heat load then stops at the NaN (C89).
- **Monte Carlo.** The drawn L/D is recorded but not flown, and `nominalbeta1` and `beta1_1sigma` are never used (C64). The
  atmosphere of the last run stays on the shared planet object (C79). An interrupted campaign cannot be resumed in
  its folder (C65).
