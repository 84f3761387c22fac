import json
P=[]
def p(i,title,statement,quant,why,anchors):
    P.append(dict(id=i,title=title,statement=statement,quantifier=quant,why_tests_cant=why,anchors=anchors))
PL="AMAT/planet.py:"; VE="AMAT/vehicle.py:"; TE="AMAT/telecom.py:"; VI="AMAT/visibility.py:"; AP="AMAT/approach.py:"; MA="AMAT/maneuver.py:"; OR="AMAT/orbiter.py:"; LA="AMAT/launcher.py:"; IN="AMAT/interplanetary.py:"
# ---------------- planet
p("C01","Atmospheric density is defined at every altitude and vanishes above the atmosphere",
 "Planet.density(h) returns a value for every altitude h: the surface constant rho0 below the surface, the loaded table's value between 0 and h_thres inclusive, and exactly 0 above h_thres; it is non-negative whenever the table is.",
 "every planet in the catalogue, every loaded density table, every real altitude","an altitude is a continuous input; tests sample a few altitudes, the branch boundaries included or not",[PL+"Planet.density",PL+"Planet.rho",PL+"Planet.rho2",PL+"Planet.rhobar"])
p("C02","Scalar and vectorised density agree exactly on the atmosphere and differ outside it",
 "On 0 <= h <= h_thres the scalar density used by the equations of motion and the vectorised density used for loads and heating are the same number; below the surface, and above h_thres for a table that extends beyond it, they differ, so the agreement cannot be extended.",
 "every table, every altitude","agreement of two independently written evaluators over a continuum",[PL+"Planet.density",PL+"Planet.densityvectorized",PL+"Planet.rhovectorized",PL+"Planet.rho"])
p("C03","Linear table lookup is exact at nodes, bounded by its neighbours, continuous, and filled outside",
 "A linear interpolation table returns the tabulated value at each tabulated abscissa, a value between the two neighbouring tabulated values in between, the fill value strictly outside, and does not depend on the order of the rows in the file.",
 "every finite table with distinct abscissae, every query, every row permutation","tables are unbounded and queries are continuous",[LA+"Launcher.__init__",PL+"Planet.loadAtmosphereModel5",PL+"Planet.loadAtmosphereModel6",VE+"Vehicle.qStagRadiative"])
p("C04","Non-dimensionalisation round-trips",
 "Planet.dimensionalize undoes Planet.nonDimState and vice versa on every state and time; the reference scales are positive for every catalogue planet.",
 "every planet, every state vector","a round trip over all reals",[PL+"Planet.nonDimState",PL+"Planet.dimensionalize"])
p("C05","Altitude/radius conversion and plot-unit conversion are bijective",
 "computeH(computeR(h)) = h, computeR(computeH(r)) = r, and convertToPlotUnits is injective: the SI trajectory can be recovered from the plotted one.",
 "every real input, trajectories of every length","continuum and unbounded length",[PL+"Planet.computeR",PL+"Planet.computeH",VE+"Vehicle.convertToPlotUnits"])
p("C06","The planet catalogue is complete and physically ordered, and unknown names are rejected",
 "Planet(name) succeeds for exactly eight names and raises ValueError for every other string; each constructed planet has positive radius, GM, reference density and atmosphere height, 0 < h_trap < h_skip = h_thres, and h_skip below the radius. The constants of each planet are those of the catalogue in SI units, and its surface gravity GM/RP^2 is within two per cent of the published value.",
 "every string","strings are unbounded; the rejection must hold for all but eight of them",[PL+"Planet.__init__"])
p("C07","Monte Carlo density profiles interpolate between the low, average and high profiles",
 "At every table row, the profile generated for sigma = 0 is average + perturbation, for +1 is high + perturbation, for -1 is low + perturbation; it is monotone in sigma when low <= avg <= high; but for sufficiently negative sigma it is negative, and the code does not clip it.",
 "every sigma, every profile triple","sigma is drawn from an unbounded normal distribution",[PL+"Planet.loadAtmosphereModel5",PL+"Planet.loadAtmosphereModel6",PL+"Planet.pSigmaFunc",PL+"Planet.nSigmaFunc"])
p("C08","Each Monte Carlo profile index selects its own disjoint block of rows, and the blocks tile the file",
 "With NPOS rows per profile and a file of n*NPOS rows, profile i (1 <= i <= n) uses exactly rows (i-1)*NPOS .. i*NPOS-1; distinct indices share no row and every row is used by exactly one index; an index beyond the file yields an empty or short block.",
 "every NPOS, number of profiles, index and file content","unbounded file sizes",[PL+"Planet.loadAtmosphereModel5",PL+"Planet.loadAtmosphereModel6",PL+"Planet.loadMonteCarloDensityFile2"])
p("C09","The scale height used by onboard density extrapolation ignores the measured profile",
 "Planet.scaleHeight(h, density_int) returns the same value whatever interpolant is passed as its argument, so measurements cannot influence it. It raises exactly from the last whole kilometre below the skip altitude upwards; elsewhere it is NaN or infinite exactly when the air is as dense as at the skip altitude, positive where the air is denser (down to 1 km below the surface), and 0 between 1 and 2 km below the surface.",
 "every interpolant argument, every altitude","equality over all function arguments",[PL+"Planet.scaleHeight",VE+"Vehicle.createDensityMeasuredFunction"])
# ---------------- launcher
p("C10","Launch capability never leaves the tabulated range",
 "launchMass(C3) is the tabulated mass at tabulated C3 values, lies between the minimum and maximum tabulated mass inside the C3 range, is exactly 0 outside it, and is non-increasing in C3 inside the range when the table is.",
 "every performance table, every C3","continuous query, unbounded tables",[LA+"Launcher.launchMass",LA+"Launcher.__init__"])
p("C11","Launch-mass plots fail exactly when all trajectories have one distinct capability",
 "The axis lower limit sorted(set(mass))[1] raises IndexError iff the dataset has at most one distinct launch capability; otherwise it is the second smallest distinct value, which is positive when masses are non-negative.",
 "every dataset","lists of any length",[IN+"Interplanetary.plot_launch_mass_vs_launch_date",IN+"Interplanetary.compute_launch_capability"])
# ---------------- telecom
p("C12","The link budget equals the physical Eb/N0 in decibels",
 "When both antennas are given by gain, or by equal diameters, the reported Eb/N0 is 10 log10 of Pt*Gt*Gr*(lambda/(4 pi d))^2/(k Ts R) minus the dB losses; doubling the range costs 20 log10 2, doubling the rate 10 log10 2, and the margin is strictly decreasing in range, rate and noise temperature and strictly increasing in power.",
 "every positive parameter set","real-valued identities and monotonicity",[TE+"Link.__init__",TE+"Link.compute_dB",TE+"Link.compute_antenna_gain",TE+"Link.compute_free_space_loss_dB"])
p("C13","The receiver dish diameter is not used",
 "When dishes are given for both ends the computed link budget does not depend on the receiver diameter: the receiver gain is computed from the transmitter diameter, and it equals the intended gain iff the two diameters have equal square.",
 "every parameter set","independence from an argument over all its values",[TE+"Link.__init__"])
p("C14","Link construction raises exactly when antenna data are unusable",
 "Link(...) fails iff, for the transmitter or the receiver, neither (diameter and efficiency both given and non-zero) nor (gain given and non-zero) holds, or a receiver dish is given while the transmitter diameter is missing; in particular a legitimate 0 dBi gain is rejected.",
 "every combination of present, missing and zero arguments","all combinations of optional arguments and reals",[TE+"Link.__init__"])
p("C15","A transmit schedule is on exactly inside its windows",
 "transmit_array[i] is True iff t_array[i] lies in some closed window; the time grid starts at 0, ends at t_seconds, is evenly spaced, and has num_points entries; the order and overlap of windows do not matter.",
 "every list of windows, every duration, every number of points","unbounded lists",[TE+"Schedule.__init__"])
p("C16","Downlinked data volume is a non-negative, non-decreasing, bounded accumulation",
 "For a non-decreasing time grid, data_volume_array starts at 0, never decreases, never exceeds rate times elapsed time, equals it when always visible and always transmitting, and is constant across samples where the link is off on both ends. Visibility and schedule may have one entry per sample or a single entry, which then counts for every sample; any other lengths raise ValueError.",
 "every visibility array, schedule, grid and rate","arrays of any length",[TE+"Link.compute_data_volume"])
# ---------------- visibility
p("C17","A lander sees its target exactly when the target is above the local horizontal plane",
 "visible is True iff the dot product of the zenith with the direction to the target is positive; the elevation lies in [0,90] degrees, is 0 when not visible and otherwise has sine equal to that dot product.",
 "every latitude, longitude, target direction or orbiter position","a continuum of geometries",[VI+"LanderToPlanet.__init__",VI+"LanderToOrbiter.__init__"])
p("C18","Orbiter occultation is exact ray/planet geometry",
 "For an orbiter outside the planet, OrbiterToPlanet marks the target not visible iff the half-line from the orbiter towards the target passes through the interior of the unit sphere.",
 "every orbiter position outside the planet and every unit target direction","geometry over a continuum",[VI+"OrbiterToPlanet.__init__"])
p("C19","The rotation time grid runs backwards for retrograde planets",
 "LanderToPlanet.t_array is increasing iff the observer planet rotates prograde; for VENUS and URANUS every time after the first is negative, so a data-volume integral over it is non-positive.",
 "all planets, all grid sizes >= 2, all visibility patterns","array lengths unbounded",[VI+"LanderToPlanet.__init__",TE+"Link.compute_data_volume"])
p("C20","Frame changes preserve lengths, angles and orientation",
 "R1, R2, R3, ICRF_to_BI and BI_to_BI_dprime are proper rotations: they preserve dot products, norms and cross products, and are undone by their transposes.",
 "every angle, every vector","identities over a continuum",[AP+"Approach.R1",AP+"Approach.R2",AP+"Approach.R3",AP+"Approach.ICRF_to_BI",AP+"Approach.BI_to_BI_dprime",VI+"Visibility.ICRF_to_BI"])
# ---------------- approach
p("C21","The approach hyperbola is always well formed",
 "For every non-zero v_inf and positive periapsis radius, the semi-major axis is negative, the eccentricity exceeds 1, a(1-e) is the target periapsis, the turning half-angle is defined, and h^2 = GM*rp*(1+e); no domain error occurs in these fields. With v_inf = 0 the constructor still returns: the eccentricity is 1 and the periapsis vector has the length asked for, but the angular momentum, plane, node and B-plane are not finite.",
 "every planet, v_inf vector and rp","continuum of inputs",[AP+"Approach.__init__"])
p("C22","The targeted periapsis vector has the requested radius and the correct angle to v_inf",
 "rp_vec_bi has length rp, its rotation into the double-prime frame is the analytic vector, and its angle to the incoming v_inf direction is arccos(1/e), for every clock angle psi, including v_inf along the pole.",
 "every v_inf, rp, psi","continuum of inputs, including the atan2 degenerate cases",[AP+"Approach.__init__",AP+"Approach.BI_to_BI_dprime"])
p("C23","Position and velocity along the approach conserve energy and angular momentum",
 "For every true anomaly with 1+e*cos(theta)>0, the computed state satisfies |v|^2/2-GM/|r| = v_inf^2/2, |r x v| = h, and |r| is the conic radius; the radial velocity is always inward, so the state is on the hyperbola iff theta <= 0.",
 "every hyperbola, every true anomaly in range","identities over a continuum",[AP+"Approach.pos_vec_bi",AP+"Approach.vel_vec_bi",AP+"Approach.r_mag_bi"])
p("C24","Orbital elements computed from the vectors reproduce the vectors",
 "The position computed from (i, OMEGA, omega) at true anomaly 0 is the targeted periapsis vector, and the orbit normal built from the angles is the direction of h, for every non-equatorial approach (node vector non-zero).",
 "every non-equatorial approach","inverse trigonometric branches over a continuum",[AP+"Approach.__init__",AP+"Approach.pos_vec_bi"])
p("C25","Entry interface state is at the requested altitude and inbound",
 "If rp <= r_EI, the entry true anomaly is defined and non-positive, the entry position has norm r_EI, the inertial speed satisfies vis-viva, and the two inertial flight-path-angle computations agree and are non-positive; if rp > r_EI the entry true anomaly is NaN.",
 "every approach and entry altitude","continuum, domain boundary",[AP+"Approach.__init__"])
p("C26","Atmosphere-relative entry velocity is right exactly in the x>0 half-space",
 "For entry positions with positive body-inertial x the computed atmosphere-relative velocity is v - Omega x r; for x<0 the longitude is off by pi and the computed velocity is v + Omega x r instead, so the result is wrong whenever the planet rotates and the entry point is off the pole.",
 "every entry state with non-zero x","half of a continuum",[AP+"Approach.vel_vec_entry_atm",AP+"Approach.__init__"])
p("C27","B-plane frame is right-handed orthonormal and the B vector lies at the reported angle",
 "S, T, R are orthonormal and right-handed for every v_inf off the pole; B is perpendicular to S, points at b_plane_angle_theta from T towards R, and |B| = b_mag gives h = b*v_inf. B_vec_bi itself, documented as the B vector in metres, has that direction but the length v_inf^2*b_mag*(e-1)/e.",
 "every v_inf not along the pole, every psi","identities over a continuum",[AP+"Approach.__init__"])
# ---------------- maneuver
p("C28","Deflection velocities connect the maneuver point to the target points",
 "The two approaches of a maneuver object are the Approach objects of its arguments, entry probes with their entry state. The Lagrange-coefficient velocity of the undeflected arc reproduces the target periapsis vector (r2 = f r1 + g v1), conserves energy (a hyperbola of the approach v_inf) and the reported delta-V is the norm of the velocity difference; g is non-zero exactly when the true-anomaly change is not a multiple of pi.",
 "every approach and maneuver radius","identities over a continuum",[MA+"ProbeOrbiterDeflection.__init__",MA+"ProbeProbeDeflection.__init__",MA+"OrbiterOrbiterDeflection.__init__"])
p("C29","Deflection time of flight is positive and increases with maneuver distance",
 "The hyperbolic anomaly is defined, and the reported probe time of flight is positive and strictly increasing in the maneuver radius; the Lambert-form time of flight is non-negative.",
 "every hyperbola, every maneuver radius beyond periapsis","monotonicity over a continuum",[MA+"ProbeOrbiterDeflection.__init__",MA+"ProbeProbeDeflection.__init__"])
p("C30","Two-probe deflection uses two different start points for one maneuver",
 "ProbeProbeDeflection evaluates the second probe's departure velocity with the first probe's position but the second probe's true-anomaly change; the velocity puts the second probe on its own approach trajectory only if the angle between the maneuver point and the second periapsis equals that change.",
 "all pairs of probe targets","geometry over a continuum",[MA+"ProbeProbeDeflection.__init__"])
# ---------------- orbiter
p("C31","Orbit states conserve energy and have the conic radius",
 "For every true anomaly, the orbiter's position has the conic radius and its velocity satisfies vis-viva exactly; the tangential component is h/(r*1.0000001), so angular momentum is 1/1.0000001 of the orbit's, for every orbit.",
 "every orbit and true anomaly","identities over a continuum",[OR+"Orbiter.pos_vec_bi",OR+"Orbiter.vel_vec_bi",OR+"PropulsiveOrbiter.pos_vec_bi",OR+"PropulsiveOrbiter.vel_vec_bi"])
p("C32","Orbiter velocity points outward on the inbound half of the orbit",
 "The computed radial velocity is non-negative at every true anomaly, while the true radial velocity is negative for true anomalies in (pi, 2 pi); the reported state there is not on the orbit.",
 "every eccentric orbit, every inbound true anomaly","a half-continuum of inputs",[OR+"Orbiter.vel_vec_bi",OR+"PropulsiveOrbiter.vel_vec_bi"])
p("C33","Periapsis-raise orbit has the requested apsides",
 "After compute_post_PRM_orbital_elements, a(1+e) is the coast apoapsis, a(1-e) the requested periapsis, h^2 = GM a (1-e^2), and 0 <= e < 1 iff the requested periapsis does not exceed the apoapsis.",
 "every coast orbit and every requested periapsis","identities over a continuum",[OR+"Orbiter.compute_post_PRM_orbital_elements"])
p("C34","Propulsive orbit insertion: apsides, period and delta-V",
 "PropulsiveOrbiter's orbit has periapsis rp and apoapsis RP + altitude; the check delta-V is the difference of the hyperbolic and elliptic periapsis speeds and is positive for every apoapsis; it decreases with apoapsis altitude.",
 "every approach and apoapsis altitude","monotonicity over a continuum",[OR+"PropulsiveOrbiter.__init__"])
p("C35","Timed orbit positions satisfy Kepler's equation",
 "If the root finder returns an exact root of Kepler's equation, the sampled radius is a(1-e cos E), the samples start at periapsis at t=0 and are at apoapsis after half a period, and positions repeat after a full period; Kepler's equation has exactly one root for each time.",
 "every orbit, every time","existence and uniqueness over a continuum",[OR+"PropulsiveOrbiter.compute_timed_orbit_trajectory",OR+"PropulsiveOrbiter.compute_E",OR+"PropulsiveOrbiter.compute_theta_star"])
p("C36","Probe targeting from orbit fails when the probe would miss the atmosphere",
 "compute_probe_targeting_trajectory on a fresh orbiter raises AttributeError iff the probe periapsis altitude is at or above h_skip; on a reused orbiter it silently uses the previous probe's entry anomaly. compute_orbiter_deflection_trajectory raises AttributeError iff no targeting call came before.",
 "every call history","depends on the history of calls on the object",[OR+"Orbiter.compute_probe_targeting_trajectory"])
# ---------------- vehicle forces
p("C37","Aerodynamic force decomposition is lossless and bank-invariant",
 "For every bank angle, a_n^2 + a_w^2 = (L/m)^2, drag opposes motion, L/D equals the vehicle's LD, and the drag acceleration equals dynamic pressure over the ballistic coefficient.",
 "every state and bank angle","identities over a continuum",[VE+"Vehicle.L",VE+"Vehicle.D",VE+"Vehicle.a_s",VE+"Vehicle.a_n",VE+"Vehicle.a_w",VE+"Vehicle.__init__"])
p("C38","Gravity components are the gradient of the zonal potential",
 "The radial and latitudinal gravity terms are the exact partial derivatives of the J2/J3 zonal potential, and the three trajectory-frame projections preserve the magnitude of the gravity vector.",
 "every position and flight direction","derivatives over a continuum",[VE+"Vehicle.grbar",VE+"Vehicle.gphibar",VE+"Vehicle.gthetabar",VE+"Vehicle.gsbar",VE+"Vehicle.gnbar",VE+"Vehicle.gwbar"])
p("C39","The Jacobi energy dissipates exactly at the drag power",
 "Along every solution of the equations of motion the derivative of v^2/2 - U - Omega^2 r^2 cos^2(phi)/2 is exactly -D v / m; so it is non-increasing in an atmosphere of non-negative density and constant in vacuum.",
 "every differentiable solution, every bank, every density","all solutions of an ODE",[VE+"Vehicle.EOM",VE+"Vehicle.EOM2",VE+"Vehicle.cfvbar",VE+"Vehicle.gsbar"])
p("C40","The equations of motion are Newton's law in the rotating frame except for the heading equation's regularisation",
 "The radius, longitude, latitude, speed and flight-path-angle rates equal those derived from Newton's second law in the rotating Cartesian frame; the heading rate differs exactly by replacing cos(gamma) by cos(gamma)+0.01 in three denominators, so axial angular momentum is not conserved in vacuum.",
 "every state","identities over a continuum",[VE+"Vehicle.EOM",VE+"Vehicle.copsibar",VE+"Vehicle.cfpsibar",VE+"Vehicle.cogammabar",VE+"Vehicle.cfgammabar"])
p("C41","Dimensionless and dimensional accelerations are the same physics",
 "The dimensionless lift, drag and accelerations times the reference acceleration GM/RP^2 equal the dimensional ones at the corresponding dimensional state.",
 "every planet, vehicle and state","identities over a continuum",[VE+"Vehicle.Lbar",VE+"Vehicle.Dbar",VE+"Vehicle.a_sbar",VE+"Vehicle.a_nbar",VE+"Vehicle.a_wbar"])
# ---------------- trajectory
p("C42","Trajectory classification is total and its index is always usable or flagged",
 "classifyTrajectory returns a flag in {-1,0,1} for every non-empty altitude history and raises on an empty one. Flag 1 exactly when no point is below the surface and some point is above the skip altitude; the cut is before the first such point. Flag -1 exactly when that is not the case and some point is below the trap altitude (cut before the first such point) or the history touches both limits exactly (nothing is kept). Flag 0 keeps everything. The flag depends on the simulated horizon: a skipped-out history can be re-classified as trapped when simulated for longer.",
 "every altitude history of every length","unbounded arrays",[VE+"Vehicle.classifyTrajectory",VE+"Vehicle.truncateTrajectory"])
p("C43","Truncation keeps a prefix and all channels stay aligned",
 "truncateTrajectory returns the same-length prefix of each of the eight channels, of length min(index, length), and truncating twice at the same index changes nothing. After every propagation that returns, at least one point is kept, every stored channel, load, pressure and heating history has exactly that many entries, the plotted point is the SI point in plot units, sample k is at k*dt, and the first plotted point is the initial state the user set. When nothing is kept the propagation raises and leaves the empty flight stored.",
 "every trajectory and index","unbounded arrays",[VE+"Vehicle.truncateTrajectory"])
p("C44","Reported deceleration is not the magnitude of the aerodynamic acceleration",
 "computeAccelerationLoad uses 2*a_w where a_w^2 is meant: its value equals the true load iff a_w is 0 or 2, it is undefined for some banked states, and with zero bank it is the true aerodynamic g-load.",
 "every trajectory point and bank angle","continuum of states",[VE+"Vehicle.computeAccelerationLoad"])
p("C45","Stagnation-point heating is non-negative and scales correctly with nose radius",
 "Convective and radiative heating are non-negative, and defined wherever density, speed and nose radius are positive; they are 0 at zero density and NaN for a negative density (except the radiative rate of MARS and TITAN); convective heating scales as 1/sqrt(RN); the total is their sum; MARS and TITAN radiative heating is 0; the VENUS radiative law jumps at 8 and 10 km/s and the EARTH law at 9 km/s.",
 "every planet, density, speed and nose radius","continuum of inputs",[VE+"Vehicle.qStagConvective",VE+"Vehicle.qStagRadiative",VE+"Vehicle.qStagTotal"])
p("C46","Heat load is a non-decreasing accumulation from zero, and continuing from a previous load fails",
 "The heat load starts at 0, has one entry per point, grows by the trapezoid of the total heating rate and never decreases; propogateEntry2 with a non-zero starting heat load never returns (ValueError in the pinned SciPy) although the flight is stored, and with zero it accumulates like propogateEntry.",
 "every heating history","unbounded arrays",[VE+"Vehicle.propogateEntry",VE+"Vehicle.propogateEntry2"])
p("C47","Nose-radius sweep restores the vehicle",
 "computeHeatingForMultipleRN, when it returns, leaves the vehicle unchanged and gives one row per requested radius, each the peak heat rate and heat load of a vehicle built with that radius; when it raises, it leaves the first radius of the list in the vehicle.",
 "every list of radii","lists of any length",[VE+"Vehicle.computeHeatingForMultipleRN"])
# ---------------- corridor
p("C48","Corridor bisection converges to a true boundary",
 "Every call of the overshoot/undershoot/EFPA searches that returns a limit returns a point within the tolerance of a sign change of the capture predicate inside the initial bracket, after at most ceil(log2(width/tol)) steps, and for a monotone predicate that is the unique boundary.",
 "every predicate, bracket and tolerance","loops of unbounded length over an arbitrary predicate",[VE+"Vehicle.findOverShootLimit",VE+"Vehicle.findUnderShootLimit",VE+"Vehicle.findEFPALimitD"])
p("C49","Corridor searches restore the vehicle's flight-path angle when they return",
 "After any search that returns, the entry flight-path angle is what it was before; a search whose bracket is already within tolerance raises, and a search interrupted by an exception leaves the last trial angle behind.",
 "every predicate, every crash point","crash points inside a loop",[VE+"Vehicle.findOverShootLimit",VE+"Vehicle.findUnderShootLimit"])
p("C50","Theoretical corridor width is overshoot minus undershoot even when a limit was not found",
 "computeTCW returns overshoot - undershoot; when a search reports failure its limit is 0, so the width is silently wrong; when both succeed and the predicates are monotone the width is within two tolerances of the true corridor width.",
 "every pair of predicates","arbitrary predicates",[VE+"Vehicle.computeTCW",VE+"Vehicle.computeTCW2",VE+"Vehicle.computeTCWD"])
p("C51","Capture predicates are consistent with orbital mechanics",
 "isCaptured answers -1 (captured) exactly when the last point's planet-relative energy is negative and 1 otherwise; hitsTargetApoapsis answers by comparing the terminal orbit's apoapsis with the target, and the low-altitude limit overrides that answer; it always raises for JUPITER and SATURN because their low-altitude limit is not defined.",
 "every terminal state","continuum of states",[VE+"Vehicle.isCaptured",VE+"Vehicle.hitsTargetApoapsis",VE+"Vehicle.hitsTargetApoapsis2"])
# ---------------- orbit elements / dv
p("C52","Terminal orbit elements are those of the two-body orbit through the state",
 "For every state with negative energy, the eccentricity radicand is non-negative, a(1-e) <= r <= a(1+e), both apsides satisfy vis-viva with the same energy and angular momentum, and the reported apoapsis/periapsis are those.",
 "every bound state","identities over a continuum",[VE+"Vehicle.computeEnergyScalar",VE+"Vehicle.computeSemiMajorAxisScalar",VE+"Vehicle.computeAngMomScalar",VE+"Vehicle.computeEccScalar",VE+"Vehicle.compute_ApoapsisAltitudeKm",VE+"Vehicle.compute_PeriapsisAltitudeKm"])
p("C53","Terminal inertial velocity is planet-relative velocity plus rotation",
 "The Cartesian velocity built from speed, flight-path angle and heading has the given speed, the given radial component, and the inertial one is exactly it plus Omega x r; the inertial flight-path angle is the angle of that vector.",
 "every exit state","identities over a continuum",[VE+"Vehicle.compute_ApoapsisAltitudeKm",OR+"Orbiter.compute_exit_state_inertial"])
p("C54","Periapsis-raise and apoapsis-raise delta-V are vis-viva differences with the right sign",
 "compute_periapsis_raise_DV is the speed difference at the common apoapsis and is positive iff the target periapsis is higher than the current one, zero iff equal; similarly for apoapsis raise; both are strictly monotone in the target.",
 "every pair of orbits with a common apsis","continuum",[VE+"Vehicle.compute_periapsis_raise_DV",VE+"Vehicle.compute_apoapsis_raise_DV"])
# ---------------- guidance
p("C55","The bank controller moves by exactly one maximum-rate step or not at all",
 "Each control cycle changes the bank angle by 0 (only when the command equals the current angle) or by exactly maxRollRate*timestep towards the command; it therefore overshoots every command closer than one step and never settles on a command that is not a whole number of steps away.",
 "every history of commands, every rate and timestep","histories of unbounded length",[VE+"Vehicle.psuedoController"])
p("C56","Bank angle stays within one step of [0,180] degrees and on the step lattice",
 "Starting at an angle in [0,180], under any sequence of commands in [0,180], the bank angle always stays strictly within one step of that interval and is the initial angle plus a whole number of steps. In a guided flight this holds of every recorded bank angle, also when a cycle raises, and the exit phase brings the angle to exactly zero one step per cycle.",
 "every command sequence, every guided flight","histories of unbounded length",[VE+"Vehicle.psuedoController",VE+"Vehicle.propogateEquilibriumGlide"])
p("C57","The guidance law's commanded bank angle is in [0,180] degrees whenever there is air",
 "For every vehicle state and gains a numeric commanded bank angle lies in [0,180], and with non-zero dynamic pressure it is the angle whose cosine is the saturated guidance law; at zero dynamic pressure with no altitude-rate term the command is NaN, which the saturation does not catch.",
 "every state and gain","continuum of states",[VE+"Vehicle.propogateEquilibriumGlide",VE+"Vehicle.propogateEquilibriumGlide2"])
p("C58","The equilibrium-glide speed switch never ends the loop",
 "The loop guard tests a speed that the loop never updates: if it is true on entry it stays true, so the phase ends only by one of its three break conditions; in particular reaching v_switch does not end it.",
 "every vehicle, atmosphere and propagation","histories of unbounded length",[VE+"Vehicle.propogateEquilibriumGlide",VE+"Vehicle.propogateEquilibriumGlide2",VE+"Vehicle.propogateEntryPhaseD"])
p("C59","Guidance time histories stay aligned",
 "After n guidance cycles the time, bank-angle, altitude and dynamic-pressure step arrays each have n+1 entries, but the acceleration step array has 2n+1, and time stamps are non-decreasing. The channels of the concatenated trajectory stay aligned, except that the exit phase does not extend the drag channel, and every new segment repeats the last point of the previous one.",
 "every number of cycles","histories of unbounded length",[VE+"Vehicle.propogateEquilibriumGlide",VE+"Vehicle.propogateExitPhase",VE+"Vehicle.propogateEntryPhaseD",VE+"Vehicle.propogateExitPhaseD"])
p("C60","Onboard apoapsis prediction does not disturb the flight",
 "predictApoapsisAltitudeKm_* leave every attribute of the flying vehicle unchanged whatever the propagation returns, also when it raises.",
 "every propagation outcome","arbitrary oracle behaviour",[VE+"Vehicle.predictApoapsisAltitudeKm_withLiftUp",VE+"Vehicle.predictApoapsisAltitudeKm_afterJettision",VE+"Vehicle.propogateEntry_util",VE+"Vehicle.propogateEntry_utilD"])
p("C61","Measured density function reproduces measurements and extrapolates exponentially",
 "The onboard density function equals the measured density at measured altitudes, decays exponentially with the scale height below the lowest measurement at its grid points, and is positive when measurements are.",
 "every measurement history","histories of unbounded length",[VE+"Vehicle.createDensityMeasuredFunction"])
p("C62","Drag-modulation queries change the vehicle they query",
 "findUnderShootLimitD/findOverShootLimitD/computeTCWD leave the vehicle with the ballistic coefficient and drag coefficient of the last configuration they tried, not the original; setting LD to 0 during the search has no effect on lift.",
 "every vehicle and call history","history of calls",[VE+"Vehicle.findUnderShootLimitD",VE+"Vehicle.findOverShootLimitD",VE+"Vehicle.computeTCWD",VE+"Vehicle.findEFPALimitD"])
# ---------------- monte carlo
p("C63","Monte Carlo runs are independent of each other",
 "Each run of a campaign has the outcome it would have if it were flown alone by a new vehicle object with the draws of its place in the random stream: nothing earlier runs left on the vehicle matters. The campaign stops at the first run that raises or does not end and otherwise stores all of them; a longer campaign with the same stream repeats the shorter one.",
 "every version of the campaign (lift modulation 1 and 2, drag modulation 1, 2 and Earth), number of runs, random stream, integrator and prior history of the vehicle","histories of unbounded length",[VE+"Vehicle.runMonteCarlo",VE+"Vehicle.runMonteCarlo2",VE+"Vehicle.runMonteCarloD",VE+"Vehicle.runMonteCarloD2",VE+"Vehicle.runMonteCarloD_Earth"])
p("C64","The drawn lift-to-drag ratio is recorded but never flown",
 "In a lift-modulated campaign the values drawn for LD, its nominal value and its standard deviation change the files LD.txt of the runs and nothing else: not the outcome, the vehicle or any other file. In a drag-modulated campaign LD is recorded as zero, and the nominal ballistic coefficient and its standard deviation given to the setup are never used.",
 "every pair of random streams that differ in the LD draws, every setup","independence over all streams",[VE+"Vehicle.runMonteCarlo",VE+"Vehicle.runMonteCarlo2",VE+"Vehicle.runMonteCarloD",VE+"Vehicle.setupMonteCarloSimulationD",VE+"Vehicle.setupMonteCarloSimulationD_Earth"])
p("C65","Results on disk after a crash are exactly the completed runs",
 "Whatever the moment a campaign is stopped, the folders of the finished runs hold all ten files with the right contents, of the run being stored each file is absent, half written or right, nothing of later runs exists, each summary file holds the finished runs followed by zeros (or is being replaced by the next such state), at most one file is half written, and outside the campaign folder only its missing parents were created. If run k raises, runs 1..k-1 are stored and nothing is half written. Starting in an existing folder raises and changes nothing, so an interrupted campaign cannot be resumed in place.",
 "every crash point, version, number of runs, random stream and initial file system","crash points",[VE+"Vehicle.runMonteCarlo",VE+"Vehicle.runMonteCarlo2",VE+"Vehicle.runMonteCarloD",VE+"Vehicle.runMonteCarloD2",VE+"Vehicle.runMonteCarloD_Earth"])
p("C66","Reported entry heading is not the direction of flight",
 "The heading reported with an entry state is arccos(cos(gamma)*cos(chi)) measured from east (from west when x<0), where gamma and chi are the true atmosphere-relative flight-path angle and heading: it is wrong for every descending entry that is not due north or south, and it cannot tell north from south.",
 "every entry state with non-zero x","continuum of entry states",["AMAT/approach.py:Approach.__init__"])
p("C67","The coast orbit starts at the atmospheric exit state",
 "The coast orbit of an orbiter passes through the vehicle's last recorded state, with the reported inertial velocity equal to the atmosphere-relative one plus the planet's rotation, for every exit with a non-negative inertial flight-path angle; for a negative one it starts at the mirrored anomaly. A flight with no recorded points raises.",
 "every recorded flight and exit state","continuum of exit states",["AMAT/orbiter.py:Orbiter.__init__"])
p("C68","Periapsis raise delta-V",
 "The periapsis raise burn is along the apoapsis velocity, and its magnitude is the difference of the vis-viva speeds at apoapsis of the two orbits, up to the stated angular momentum slack.",
 "every captured exit state and target periapsis","continuum of exit states",["AMAT/orbiter.py:Orbiter.__init__"])
p("C69","An escaping or equatorial vehicle is accepted silently",
 "Building an orbiter from a vehicle with positive orbital energy raises no error and reports a positive finite apoapsis radius although the orbit never turns back; from an exactly equatorial exit it raises no error and reports undefined orbit orientation.",
 "every exit state with positive energy or equatorial plane","continuum of exit states",["AMAT/orbiter.py:Orbiter.__init__"])
p("C70","Probe trajectory keeps the orbiter's plane but not the burn point",
 "A burn along the velocity leaves inclination and node of the orbit unchanged; the probe trajectory reported after the burn lies in the orbiter's plane, reaches the radius of the atmosphere boundary at the reported entry anomaly, but starts at the burn point only when the burn anomaly has the same cosine on both orbits.",
 "every captured orbiter, burn anomaly and burn magnitude","continuum of states",["AMAT/orbiter.py:Orbiter.compute_probe_targeting_trajectory","AMAT/orbiter.py:Orbiter.pos_vec_bi_probe"])
p("C71","Reported atmosphere-relative probe flight-path angle is the inertial one",
 "The atmosphere-relative flight-path angle reported for a probe entry is the inertial flight-path angle; the two differ whenever the atmosphere-relative and inertial speeds differ and the probe is not flying horizontally.",
 "every probe entry","continuum of states",["AMAT/orbiter.py:Orbiter.compute_probe_targeting_trajectory"])
p("C72","A vehicle with a user-defined drag law cannot be flown",
 "For a vehicle built with the user-defined drag coefficient option, evaluating the drag force or the equations of motion raises AttributeError at every state, before and after a Mach-dependent drag function is supplied: the documented way to supply drag as a function of Mach number can never produce a trajectory.",
 "every such vehicle, drag function, state and bank angle","universal over states and drag functions",["AMAT/vehicle.py:Vehicle.computeMachScalar","AMAT/vehicle.py:Vehicle.Drag","AMAT/vehicle.py:Vehicle.EOM"])
p("C73","Trajectories are sampled at k*dt and reach the requested final time",
 "The time grid of a propagation has its k-th sample at exactly k*dt seconds; the last sample is at or after the requested duration and less than one step beyond it.",
 "every planet, duration and positive step","unbounded number of samples",[VE+"Vehicle.solveTrajectory",VE+"Vehicle.solveTrajectory2"])
p("C74","The heat load of a guided flight restarts at zero in every guidance cycle",
 "In both versions of the guided entry each cycle records a heat load integrated from zero, so the final heat load reported is that of the last cycle alone and not the total of the flight.",
 "every cycle of every guided flight at a numeric bank angle","unbounded number of cycles",[VE+"Vehicle.propogateEquilibriumGlide",VE+"Vehicle.propogateEquilibriumGlide2",VE+"Vehicle.propogateExitPhase",VE+"Vehicle.propogateExitPhase2"])
p("C75","Guided flights cannot continue or predict from a non-zero heat load",
 "With the pinned SciPy, version 2 of the guidance completes a cycle only if the heat load at its start is exactly zero, and the lift-up apoapsis prediction of either version returns only if the heat load at the end of the cycle is exactly zero. With drag modulation version 1 flies and predicts from any heat load.",
 "every state reached by the guidance","depends on the whole history of heating",[VE+"Vehicle.propogateEquilibriumGlide2",VE+"Vehicle.propogateExitPhase2",VE+"Vehicle.predictApoapsisAltitudeKm_withLiftUp",VE+"Vehicle.propogateEntry_util"])
p("C76","Drag-modulated guided flight: which vehicle is flown, and what is left behind",
 "The entry phase is flown at zero bank with the ballistic coefficient beta1 and the drag coefficient mass/(beta1*A), the exit phase with beta1*betaRatio; every other property of the vehicle is the user's. Afterwards the vehicle keeps the exit configuration. The flight depends on the vehicle, its initial state and the parameters only, not on trajectories flown before.",
 "every vehicle, parameters, previous flights and number of cycles","history of unbounded length",[VE+"Vehicle.propogateEntryPhaseD",VE+"Vehicle.propogateEntryPhaseD2",VE+"Vehicle.propogateExitPhaseD",VE+"Vehicle.propogateExitPhaseD2",VE+"Vehicle.propogateGuidedEntryD",VE+"Vehicle.propogateGuidedEntryD2"])
p("C77","A guided flight overwrites the vehicle's initial state",
 "After every guidance cycle the vehicle's stored initial state is the state at the start of that cycle, so after a guided entry the user's entry state is lost; mass, aerodynamics and planet are unchanged.",
 "every cycle of every guided flight","history of unbounded length",[VE+"Vehicle.propogateEquilibriumGlide",VE+"Vehicle.propogateExitPhase",VE+"Vehicle.setInitialState"])
p("C78","What a Monte Carlo run draws",
 "A run uses an atmosphere file of the list, a profile between 1 and NMONTE, an entry angle equal to the nominal one plus its standard deviation times a standard normal number, and an atmosphere parameter equal to the factor times another one, each run from its own part of the stream. With an empty list, no profiles or a negative standard deviation the first run raises before anything is flown, leaving the campaign folder empty and the vehicle unchanged.",
 "every setup, run number and random stream","all random streams",[VE+"Vehicle.runMonteCarlo",VE+"Vehicle.runMonteCarlo2",VE+"Vehicle.runMonteCarloD",VE+"Vehicle.setupMonteCarloSimulation"])
p("C79","What a Monte Carlo campaign starts from and leaves behind",
 "Runs start from the initial state the vehicle had when the campaign was set up: changing it afterwards or flying the vehicle changes neither the outcome nor the files. After a campaign the planet object keeps the perturbed density of the last run.",
 "every setup, number of runs, random stream and vehicle history","histories of unbounded length",[VE+"Vehicle.setupMonteCarloSimulation",VE+"Vehicle.runMonteCarlo",VE+"Vehicle.runMonteCarloD"])
p("C80","A flight depends on mass and area only through the ballistic coefficient",
 "Two vehicles with the same ballistic coefficient, lift-to-drag ratio, planet and initial state fly the same trajectory with the same loads and pressures, or fail with the same exception, whatever their masses, reference areas, angles of attack and nose radii; with the same nose radius the heating and heat load are the same too.",
 "every pair of vehicles, initial state, bank angle, duration, step and integrator","equality of whole flights for all vehicles and whatever the integrator returns",[VE+"Vehicle.__init__",VE+"Vehicle.propogateEntry",VE+"Vehicle.propogateEntry2",VE+"Vehicle.EOM"])
p("C81","The bank angle is an angle, and only lift feels it",
 "A vehicle with zero lift-to-drag ratio has exactly the same flight at every bank angle; any vehicle has the same flight at bank angles a whole number of turns apart; opposite bank angles give opposite side forces, which vanish exactly without lift, without air, without speed or at wings level.",
 "every vehicle, initial state, bank angle, duration, step and integrator","equality of whole flights whatever the integrator returns",[VE+"Vehicle.propogateEntry",VE+"Vehicle.propogateEntry2",VE+"Vehicle.a_wbar",VE+"Vehicle.a_nbar"])
p("C82","Only the density between the surface and the top of the atmosphere influences the trajectory",
 "Two atmosphere tables whose densities agree between the surface and h_thres give the same trajectory, or the same exception: temperatures, pressures, sound speeds and densities elsewhere do not matter. Loads and heating rates agree as well when the kept points lie in that range, which is so whenever the vehicle left the atmosphere or was still in it at the end.",
 "every pair of such tables, vehicle, initial state, bank angle, duration, step and integrator","equality of whole flights for all tables",[VE+"Vehicle.propogateEntry",VE+"Vehicle.propogateEntry2",PL+"Planet.density",PL+"Planet.rhovectorized"])
p("C83","Symmetries of the motion",
 "A solution of the equations of motion turned by any longitude is a solution. For VENUS, JUPITER, SATURN, URANUS and NEPTUNE, which have no odd zonal term, the mirror image of a solution in the equatorial plane flown at the opposite bank angle is a solution; for EARTH, MARS and TITAN it is not, the speed rates over the equator differing by 3 J3/r^5.",
 "every vehicle, solution and bank history","all solutions of a differential equation",[VE+"Vehicle.EOM",VE+"Vehicle.gphibar",VE+"Vehicle.grbar",PL+"Planet.__init__"])
p("C84","A vehicle object has no memory beyond its configuration",
 "After any sequence of setters, propagations, capture questions, corridor searches, drag-modulation queries and nose-radius sweeps that all returned, the vehicle's configuration is exactly what the setters put there (the drag-modulation queries leaving the ballistic coefficient they tried last), and every further sequence of calls gets the answers, exceptions and stored flights a fresh object with that configuration gives. Even after exceptions only the entry flight-path angle, LD, beta, CD and nose radius can differ from what was set, and a plain propagation or capture question changes nothing at all.",
 "every sequence of calls of any length, every configuration and integrator","histories of unbounded length",[VE+"Vehicle.setInitialState",VE+"Vehicle.setSolverParams",VE+"Vehicle.setDragModulationVehicleParams",VE+"Vehicle.propogateEntry",VE+"Vehicle.propogateEntry2",VE+"Vehicle.isCaptured",VE+"Vehicle.hitsTargetApoapsis",VE+"Vehicle.findOverShootLimit",VE+"Vehicle.findUnderShootLimit",VE+"Vehicle.computeTCW",VE+"Vehicle.findEFPALimitD",VE+"Vehicle.computeTCWD",VE+"Vehicle.computeHeatingForMultipleRN"])
p("C85","Loading an atmosphere file makes the planet object say what the file says, or changes no profile",
 "When loading an atmosphere file returns, the temperature, pressure and density profiles return the file's values at the file's heights (converted from kilometres if asked), the sound speed squared times the density is the heat-capacity ratio times the pressure there, and outside the file's height range the temperature, pressure and density are 0 and the sound speed 1e20. The load returns exactly when the table has two or more rows, the column numbers exist and the interpolation kind accepts the heights. A load that raises leaves every profile function as it was, and a load that returns leaves nothing of the object's earlier atmosphere behind. The profile check samples the profiles from 0 to the atmosphere top inclusive, at an interval slightly larger than the requested one.",
 "every table, column choice, height unit, interpolation kind that is exact at its nodes, and object state","the table and columns are unbounded, and failures leave partial state",[PL+"Planet.loadAtmosphereModel",PL+"Planet.checkAtmProfiles"])
p("C86","Every point of a flight report is the physics of that point's altitude and speed",
 "After any propagation that returns, for every kept point: the reported dynamic pressure in atmospheres is half the density times the speed squared over 101325, with the density the planet's profile at that point's reported altitude; the stagnation pressure adds the static pressure there; the drag load is the drag deceleration in standard gravities, for a constructed vehicle the dynamic pressure over the ballistic coefficient; the net load is the root of the code's radicand and not a number exactly when that is negative; the convective, radiative and total heating are the planet's heating laws at that density and speed. Mach numbers are speed over the sound speed at the altitude, and profiles asked for at radii are the profiles at the altitudes above the surface.",
 "every vehicle, atmosphere, planet, initial state, bank angle, duration, step and integrator output, and every kept point","flights have unboundedly many points and arbitrary atmospheres",[VE+"Vehicle.propogateEntry",VE+"Vehicle.propogateEntry2",VE+"Vehicle.computeDynPres",VE+"Vehicle.computeStagPres",VE+"Vehicle.computeAccelerationLoad",VE+"Vehicle.computeAccelerationDrag",VE+"Vehicle.computeMach",PL+"Planet.pressurevectorized",PL+"Planet.temperaturevectorized",PL+"Planet.sonicvectorized"])
p("C87","A second-version propagation never reports a flight-path angle past 88 degrees of steepness",
 "If the integrator ends at the first crossing of its event, every point reported by propogateEntry2 of a vehicle that entered shallower than -88 degrees has a flight-path angle of at least -88 degrees, and one that entered steeper never gets shallower than -88 degrees.",
 "every vehicle, initial state, duration, step and integrator that ends at its event","the event must be watched along the whole flight",[VE+"Vehicle.propogateEntry2",VE+"Vehicle.solveTrajectory2",VE+"Vehicle.hit_EFPA_90"])
p("C88","The heating laws are the published correlations, and denser or faster never heats less",
 "For every planet and every positive nose radius, density and speed, the convective heating is the tabulated power law of that planet (coefficient and exponents), and so is the radiative heating in each of its speed bands, for Earth with the tabulated velocity function interpolated linearly (zero below 9 km/s, 2040 above 16 km/s). At a fixed nose radius a higher density or a higher speed never gives less convective or less radiative heating, across the band boundaries too.",
 "every planet, nose radius, density and speed","real arguments, and comparisons across branch boundaries",[VE+"Vehicle.qStagConvective",VE+"Vehicle.qStagRadiative"])
p("C89","A Monte Carlo run records the maxima of the flight it flew",
 "The numbers a Monte Carlo run records come from the guided flight of the vehicle in the drawn atmosphere from the captured state with the drawn entry angle: the orbit results are that flight's, and the recorded peak load and peak heating are the greatest numbers of its whole-flight histories (NaN only if the history starts with NaN; NaN later on is left out silently). The version-2 heat load is a thousandth of the greatest value of the trapezoidal integral of the heating over the flight time in seconds, which for a finite non-negative heating history is the integral over the whole flight, and which hides everything after a NaN.",
 "every campaign kind, setup, random stream, run number, vehicle, atmosphere and flight history","histories of unbounded length with possible NaNs",[VE+"Vehicle.runMonteCarlo",VE+"Vehicle.runMonteCarlo2",VE+"Vehicle.runMonteCarloD",VE+"Vehicle.runMonteCarloD2",VE+"Vehicle.runMonteCarloD_Earth"])
p("C90","Each guidance cycle records what happened in it; the density measured is the true one seen through the mean speed",
 "Every returning cycle of the lift-modulation glide and of the drag-modulation entry phase appends to the step arrays the time, altitude, climb rate v sin(FPA) and dynamic pressure rho v^2/2 of the point the cycle started from, the loads at the point it ended at (the net load twice), the finite difference of the climb rate in m/s^2 against the previous entry, and a measured density. That measured density is exactly the atmosphere's density at the end of the cycle times (v_end / mean speed)^2, so a vehicle that slowed down always underestimates the density. Every array starts with an artificial zero entry; exit-phase cycles extend only the clock, bank and reference climb rate arrays.",
 "every vehicle, atmosphere, integrator, parameter set and number of cycles","any history of cycles of unbounded length",[VE+"Vehicle.propogateEquilibriumGlide",VE+"Vehicle.propogateEquilibriumGlide2",VE+"Vehicle.propogateExitPhase",VE+"Vehicle.propogateEntryPhaseD",VE+"Vehicle.propogateExitPhaseD"])
p("C91","The final report of a guided flight is the orbit of its last point and its cost to correct",
 "When an exit phase returns, terminal_apoapsis and terminal_periapsis are the apsides of the orbit of the last point of the returned history, apoapsis_perc_error is 100 (apoapsis - target)/target (NaN for a zero target or no apoapsis), and the two impulses are those of the public raise methods at those altitudes. So the error is positive exactly when the apoapsis is too high, and each impulse is zero exactly when its apsis is on target. The onboard apoapsis prediction is that of the last point of a flight of the same vehicle through the given density function.",
 "every guided flight of either kind that returns, every target","any flight and target",[VE+"Vehicle.propogateExitPhase",VE+"Vehicle.propogateExitPhase2",VE+"Vehicle.propogateExitPhaseD",VE+"Vehicle.propogateExitPhaseD2",VE+"Vehicle.predictApoapsisAltitudeKm_withLiftUp"])
p("C92","The trajectory arrays of an orbiter sample its orbits; the deflection trajectory is turned by the difference of the arguments of periapsis",
 "x/y/z_orbit_arr of an Orbiter are 601 points, in planet radii, at true anomalies evenly spaced over one revolution of the final orbit; the curve closes, it starts and ends at the apoapsis radius and has the periapsis radius in the middle. The coast arrays sample the exit orbit from the exit anomaly to apoapsis in 301 points, a PropulsiveOrbiter's arrays one revolution from periapsis to periapsis, a probe's arrays its reported positions from the burn to the entry. After compute_orbiter_deflection_trajectory the stored elements are those of the state after the burn, its arrays sample one revolution and close, and each reported position is at the distance of the deflected orbit and in its plane but turned by the orbiter's argument of periapsis minus the deflected orbit's own.",
 "every exit state, target periapsis, approach, burn, number of points","any orbit and burn",[OR+"Orbiter.compute_coast_trajectory",OR+"Orbiter.compute_orbit_trajectory",OR+"Orbiter.compute_orbiter_deflection_trajectory",OR+"Orbiter.pos_vec_bi_orbiter_defl",OR+"Orbiter.compute_probe_targeting_trajectory",OR+"PropulsiveOrbiter.compute_orbit_trajectory"])
p("C93","Where a probe enters: latitude, longitude, velocity through the air and heading",
 "For a probe that enters, latitude_probe_entry_bi is the latitude of the entry position. When its x coordinate is not negative, longitude_probe_entry_bi is its longitude and v_vec_probe_entry_atm is the inertial velocity minus that of the air; when it is negative the longitude is half a turn off and the air velocity is added; over a pole longitude, velocity and heading are NaN. heading_atm_probe_entry is not the direction of flight: it is the angle whose cosine is cos(FPA) cos(heading) of the reported velocity, with the sign flipped when x is negative.",
 "every orbiter, burn and entry position","any entry position, including the y axis and the poles",[OR+"Orbiter.compute_probe_targeting_trajectory",OR+"Orbiter.vel_vec_probe_entry_atm"])
p("C94", "Without air the guidance commands full lift up, full lift down or nothing",
  "Where the dynamic pressure is zero, the bank angle commanded to a lifting vehicle is 0 degrees exactly when it flies slower than the circular speed while its altitude-rate term is negative, 180 degrees exactly when it flies faster than the circular speed while that term is positive (with a positive dynamic-pressure gain in both cases), and in every other case the command is NaN; in particular a vehicle that descends faster than the circular speed above the air, as every aerocapture vehicle does at entry, gets a NaN command.",
  "every vehicle with positive mass, lift coefficient and area, every planet constant, speed, radius, altitude rate and gain",
  "the case depends on three signs of continuous quantities and on IEEE infinities that cancel",
  [VE+"propogateEquilibriumGlide", VE+"propogateEquilibriumGlide2"])
p("C95", "Ranges, grids and miss distances of the visibility classes",
  "The range reported by the planet-visibility classes is the straight-line distance between the two ephemeris positions in metres; a lander's longitude and time grids advance together with the planet's rotation; an orbiter's time grid is even from 0 to the requested time; the listed miss distance is the distance of the planet's centre from the line towards the target, in planet radii. When observer and target have the same ephemeris position (Saturn from Titan, always) a lander is told that the target is never visible and an orbiter that it always is. The orbiter class raises exactly when the observer planet is unknown or more samples are asked for than the orbit has positions (IndexError).",
  "every ephemeris, target, observer, latitude, orbit and number of points",
  "continuum of geometries and an arbitrary ephemeris",
  [VI+"LanderToPlanet.__init__", VI+"OrbiterToPlanet.__init__"])
p("C96", "Corridor searches survive rounding, down to the spacing of the floating-point numbers",
  "With every sum, difference and mean of the bisection rounded, a limit returned by the corridor searches is still a boundary between the two outcomes, to within the requested tolerance plus one rounding error; the search ends after n rounds as soon as the initial width is at most (tolerance - 4 rounding errors) * 2^n; with a tolerance below the spacing of the floating-point numbers of the interval it never ends. IEEE binary64 meets the assumptions with a rounding error of 2^-45 degrees, and without rounding the search is the one of the other properties.",
  "every monotone rounding that keeps machine numbers and their doubles, every predicate, interval and tolerance",
  "every sequence of rounding errors and every depth of bisection; non-termination is not observable by a test",
  [VE+"Vehicle.findUnderShootLimit", VE+"Vehicle.findOverShootLimit", VE+"Vehicle.findEFPALimitD"])
p("C97", "The output grid of a trajectory in rounded arithmetic",
  "With every operation of the grid rounded, sample k of the output times is k*dt up to a relative error of three roundings, the grid is never empty, and its last sample lies between the requested duration and one step past it up to eight roundings of the sum. IEEE binary64 meets the assumption with relative error 2^-53.",
  "every rounding with a bounded relative error, every duration, step and reference time",
  "every accumulation of rounding errors over grids of any length",
  [VE+"Vehicle.solveTrajectory", VE+"Vehicle.propogateEntry"])
p("C98", "A target at the zenith is lost to any rounding error past 1",
  "When the product of the zenith direction and the direction to the target exceeds 1, as rounding can make it, the visibility classes report a NaN angle, elevation 0 and not visible; exactly overhead they report visible at 90 degrees, and for every error bound, however small, a zenith vector that close to it makes the same target not visible.",
  "every zenith and target direction and every error bound",
  "the failing inputs form a set no sampled test needs to hit",
  [VI+"LanderToPlanet.__init__", VI+"LanderToOrbiter.__init__"])
p("C99", "Which inputs are rejected, with which exception, and what is left behind",
  "A zero output step raises ValueError in both propagations and leaves the vehicle as it was; so does (IndexError in version 2, ValueError in version 1) a duration that leaves no output time. Building the measured density function raises (ValueError) exactly when nothing has been recorded, the two histories have different lengths, or no recorded altitude is below the top of the scale-height grid. Reading a Monte Carlo density file raises (IndexError) exactly when it has at most one row, at most one column, or lacks a column the campaign names; otherwise row i of the result is row i of the file, in metres and kg/m^3, for both file layouts.",
  "every vehicle, duration, step, history, planet, file and column choice",
  "the rejected inputs are infinite sets whose boundaries are the claim",
  [VE+"Vehicle.propogateEntry", VE+"Vehicle.propogateEntry2", VE+"Vehicle.createDensityMeasuredFunction", PL+"Planet.loadMonteCarloDensityFile2", PL+"Planet.loadMonteCarloDensityFile3"])
p("C100", "A guided flight depends only on what was configured, and spoils only the initial state",
  "Take a vehicle on which the guidance setters have been called. Two such vehicles with the same configuration (vehicle, initial state, tolerance, drag-modulation and guidance parameters) answer every further sequence of calls alike, guided flights with and without drag modulation and raised exceptions included, whatever each has flown before. After any history of calls that returned, the configuration is the one the setters put there, except that a guided flight leaves its own last state as the initial state and, with drag modulation, the ballistic coefficient after jettison; so setting the initial state again makes the object as good as a fresh one. setDragEntryPhaseParams and setEquilibriumGlideParams share four parameters and the last call wins. An answer of a guided flight comprises the whole recorded history and ten of the eleven step arrays; hdotref_array starts with leftovers.",
  "all histories of setters, propagations, corridor queries, drag-modulation queries and guided flights, all vehicles, atmospheres, parameters and stored results",
  "a test runs one short history; hidden memory between guided flights shows only in histories nobody tried",
  [VE+"Vehicle.propogateGuidedEntry", VE+"Vehicle.propogateGuidedEntryD", VE+"Vehicle.setMaxRollRate", VE+"Vehicle.setTargetOrbitParams", VE+"Vehicle.setEquilibriumGlideParams", VE+"Vehicle.setDragEntryPhaseParams", VE+"Vehicle.setInitialState"])
p("C101", "Seen along v_inf, the approach stays at its clock angle and comes in at the aim point",
  "In the double-prime frame, whose z axis is the direction of v_inf, the position at true anomaly theta lies in the half-plane through the z axis at the clock angle psi (opposite for theta beyond beta), at the angle beta - theta from v_inf and at the conic radius rp*(1+e)/(1+e*cos(theta)). Going back along the incoming asymptote the vehicle comes from z = minus infinity and its offset from the line through the centre tends to b_mag*(cos psi, sin psi). The B-plane axes are constant in this frame: R is x and T is minus y. The attribute beta, documented as the true anomaly of the outgoing asymptote, is not: that anomaly is pi - beta, and at beta the orbit is at the finite distance rp*(1+e)/2.",
  "every non-equatorial approach with v_inf non-zero and rp > 0, every clock angle and every true anomaly on the branch",
  "a statement about a continuum of positions and a limit at infinity",
  [AP+"Approach.pos_vec_bi_dprime", AP+"Approach.BI_to_BI_dprime", AP+"Approach.__init__"])
p("C102", "Planning calls on an orbiter neither disturb it nor each other",
  "Whatever sequence of probe targeting and deflection calls is made on an Orbiter, raised exceptions included, everything its constructor computed stays as it was; a deflection call leaves the reported probe alone and a targeting call the reported deflection. A probe that enters the atmosphere is reported (orbit, entry state, trajectory) as it would be on a fresh orbiter, and a deflection as on a fresh orbiter right after the last release.",
  "every orbiter and every history of targeting and deflection calls",
  "a test makes a few calls; interference shows only in particular orders of calls",
  [OR+"Orbiter.compute_probe_targeting_trajectory", OR+"Orbiter.compute_orbiter_deflection_trajectory"])
p("C103", "A guided flight is a chain of plain flights, recorded end to end",
  "When a guided entry of either kind returns, there is a sequence of plain propagations (each exactly what the public propagation method leaves on a fresh vehicle with that initial state and bank angle) such that the first starts from the user's initial state and flies one second at zero bank, every other flies the guidance time step from the last point of the one before at the recorded bank angle, and every history returned is theirs laid end to end with the clock running on (the drag load only up to the exit phase). With drag modulation the legs before jettison fly beta1 and those after it beta1 times the ratio. The heat load handed to each exit leg is that of the last leg before the exit phase, not of the preceding leg.",
  "every guided flight that returns, of either kind and version, any vehicle, atmosphere, integrator and number of cycles",
  "a test sees one flight and cannot show that no point was added, dropped or taken from another state for any number of cycles",
  [VE+"Vehicle.propogateGuidedEntry", VE+"Vehicle.propogateGuidedEntry2", VE+"Vehicle.propogateGuidedEntryD", VE+"Vehicle.propogateGuidedEntryD2"])
p("C104","No flight gains energy when the integrator makes no error",
"Suppose the external integrators return values of an exact solution of the equations of motion (continuous, with the right derivative except at finitely many times). Then for a vehicle with positive ballistic coefficient in an atmosphere whose density is never negative, flown by propogateEntry or propogateEntry2 from a positive speed, away from the poles and no more than 90.57 degrees from the horizontal, the energy per unit mass in the planet's rotating frame (kinetic minus gravitational, with J2 and J3, minus centrifugal), computed in SI units from the reported altitude, latitude and speed, never increases from one reported point to any later one; every reported speed is positive, every latitude lies strictly between the poles, and the flight-path angle never passes that limit. The same holds along the whole history of a guided lift-modulated flight whose commanded bank angles are numbers, and of a guided drag-modulated flight with positive ballistic coefficient and ratio, across every joint between cycles.",
"every planet, vehicle, atmosphere, initial conditions in the stated range, exact integrator, bank angle, duration, step, guidance parameters and number of cycles",
"the claim is about all exact solutions of a nonlinear ODE and all their sample grids; a test integrates numerically, so it sees the integrator's error and a handful of flights",
[VE+"Vehicle.propogateEntry",VE+"Vehicle.propogateEntry2",VE+"Vehicle.EOM",VE+"Vehicle.solveTrajectory",VE+"Vehicle.solveTrajectory2",VE+"Vehicle.propogateGuidedEntry",VE+"Vehicle.propogateGuidedEntryD"])
p("C105","A guided version-2 flight never dives past -88 degrees, and a flight started there never moves",
  "Suppose the integrator samples a continuous path from the initial state and honours a terminal event (the event function is not zero before the last returned time). Then a guided version-2 flight of either kind that starts no steeper than -88 degrees is never reported steeper at any point of its history, whatever number of guidance cycles, and propogateEntry2 started at exactly -88 degrees yields a single point whatever duration was asked for.",
  "every planet, vehicle, initial conditions, event-honouring integrator, bank angle, duration, step, guidance parameters and number of cycles",
  "the crossing can happen between any two samples of any cycle of any flight; a test sees one flight",
  [VE+"Vehicle.propogateEntry2",VE+"Vehicle.solveTrajectory2",VE+"Vehicle.hit_EFPA_90",VE+"Vehicle.propogateGuidedEntry2",VE+"Vehicle.propogateGuidedEntryD2"])
p("C106","A flight is determined by where it starts",
  "Let the integrators solve their equations exactly, let the vehicle have a fixed drag coefficient, and let the density profile be Lipschitz between the surface and the top of the atmosphere, as every linearly interpolated table that covers that range is. If the equations of motion have a solution from the initial conditions, at a given bank angle, that stays strictly between the surface and the top up to some time, then every point a propagation reports up to that time is this solution at the reported time. So the report - position, motion, loads, pressures and heating rates - at a given time does not depend on the integrator, its tolerance, the version of the method, the output step or the duration; initialising a vehicle at any reported point and flying on reports what one uninterrupted flight reports; the entry phase of a drag-modulated guided flight, however it is cut into cycles, is one flight with the skirt, and what follows it is one flight without the skirt from where the entry phase ended.",
  "all planets, vehicles without a Mach-dependent drag law, Lipschitz atmospheres, initial conditions, bank angles, exact integrators, versions, tolerances, steps, durations, restart points, guided drag-modulation flights of any number of cycles",
  "Tests compare a few runs with each other at a few step sizes; that two exact runs can never differ at a common time needs the uniqueness of solutions of the equations as coded, at every state inside the atmosphere.",
  [VE+"Vehicle.EOM",VE+"Vehicle.solveTrajectory",VE+"Vehicle.solveTrajectory2",VE+"Vehicle.propogateEntry",VE+"Vehicle.propogateEntry2",VE+"Vehicle.convertToPlotUnits",VE+"Vehicle.propogateGuidedEntryD"])
p("C107","The reported probe time of flight runs to periapsis, not to the documented entry interface",
 "ProbeOrbiterDeflection and ProbeProbeDeflection document TOF_probe / TOF_probe1 as the time from the maneuver to the atmospheric entry interface. Coasting from the maneuver point with the reported departure velocity, the probe passes through exactly the entry state its Approach object reports at an instant TE, and is at its periapsis after the reported time; TE is strictly earlier than the reported time whenever the aim radius is below the interface, and the only coasting instants at the interface distance are TE and its mirror image on the way out, so the documented reading is false for every such maneuver.",
 "every planet, arrival velocity, aim point below or at the interface, and maneuver radius above the interface, for approaches inclined to the equator",
 "The reported number is finite, positive and plausible; only comparing it with the exact motion for every geometry shows which event it times.",
 [MA+"ProbeOrbiterDeflection.__init__", MA+"ProbeProbeDeflection.__init__", AP+"Approach.__init__"])
p("C108","The exit state an Orbiter reports as body-inertial has the planet-relative heading",
 "Of the body-inertial exit state of an Orbiter (terminal_r_bi ... terminal_psi_bi), radius, longitude, latitude, speed and flight-path angle are those of the inertial state vector; terminal_psi_bi is the heading through the air. The six values describe the inertial velocity exactly when the air at that place does not move, or the heading is due east or west (and the air does not carry the vehicle backwards faster than it flies); since every planet in the catalogue rotates, for every exit away from a pole on any other heading they describe a different velocity.",
 "every planet and every recorded flight whose last point moves forward (non-zero horizontal speed)",
 "The reported angle is plausible and close to the right one for slowly rotating planets; only the vector identity for all states shows when it is wrong.",
 [OR+"Orbiter.compute_exit_state_inertial", OR+"Orbiter.__init__"])
p("C109","Data volume ignores the schedule's clock, the range and the margin; the printed budget leaves out a loss",
 "compute_data_volume pairs samples by position: a schedule of duration T used with a visibility whose clock runs to Tv behaves like a schedule whose windows are stretched by Tv/T (no error is raised), so a sample can count as transmitting outside every window; two links with the same rate give the same volume whatever their margins. The decibel lines of print_link_budget add up to the printed available Eb/N0 plus the DSN loss, up to the rounding of the printed numbers (at most 0.05 dB): with any DSN loss above 0.05 dB, as by default, they do not add up to the printed total.",
 "every link, every pair of durations, every number of points, every list of windows",
 "Tests use matching durations and compare single attributes; the relation must hold for all durations, windows and losses.",
 [TE+"Link.compute_data_volume", TE+"Link.print_link_budget", TE+"Schedule.__init__"])
p("C110", "The entry state reported for a released probe combines a position from one orbit orientation with a velocity from another",
  "After compute_probe_targeting_trajectory the true entry point is the point, at the reported entry anomaly, of the conic through the state the burn leaves the probe in; it lies on the atmosphere boundary. The reported entry velocity is the descending velocity of that conic at that point: same energy, angular momentum smaller by the factor 1.0000001. The reported entry position is that point turned about the orbit normal by the orbiter's argument of periapsis minus the probe orbit's; it misses the true point by 2 rE |sin(difference/2)| and equals it only when the difference is a whole number of turns, so never for a release at apoapsis. Consequently the flight-path angle of the reported velocity at the reported position is the reported inertial entry angle (up to that factor in its cosine) plus the same difference.",
  "every planet, captured orbiter, earlier calls, release anomaly and burn for which the probe orbit enters and is neither circular nor parabolic",
  "tests look at one release and at each reported value by itself; that position and velocity belong to differently oriented orbits shows only by comparing them with the conic through the burn state",
  [OR+"Orbiter.compute_probe_targeting_trajectory", OR+"Orbiter.pos_vec_bi_probe", OR+"Orbiter.vel_vec_bi_probe"])
p("C111","What the trade-study plots leave on disk",
  "The plotting methods of an interplanetary dataset save the figure they draw as PNG, then PDF, then EPS under a name built from the dataset's name. After any history of plotting calls a file shows the figure of the last call that saves under its name, and a file no call names is untouched; a call cut short leaves every file either as it was or showing the new figure, an earlier format being new whenever a later one is. Two calls share a file exactly when they are the same method and their names join to the same text: plots of different methods never collide, launch-mass-versus-date plots of different launchers stay apart when the dataset name has no underscore, but the two colour-bar plots leave the launcher out of the name, so comparing launchers on one dataset keeps only the last. plot_launch_mass_vs_TOF never saves a file: it stops with TypeError after drawing. A mass plot is drawn exactly when two different masses occur; it shows one point per launch, and of the points only those of the smallest mass can be off the vertical axis, exactly when the next larger mass is more than 100 kg above.",
  "all datasets, launchers, histories of plotting calls, earlier disk contents, crash points",
  "a test looks at one figure at a time and usually mocks savefig; which file survives depends on the whole history of calls and on the names chosen",
  [IN+"Interplanetary.plot_launch_mass_vs_launch_date", IN+"Interplanetary.plot_TOF_vs_launch_date", IN+"Interplanetary.plot_Avinf_vs_launch_date", IN+"Interplanetary.plot_Avinf_vs_launch_date_with_launch_mass_colorbar", IN+"Interplanetary.plot_launch_mass_vs_TOF", IN+"Interplanetary.plot_launch_mass_vs_TOF_with_vinf_colorbar"])
p("C112", "A study of several Monte Carlo campaigns keeps every result",
  "Over any sequence of Monte Carlo campaigns on one file system, each run to its end or killed after any file operation, nothing that was on disk at the beginning is ever changed; whatever a campaign leaves is still there, unchanged, after all campaigns that follow it, in particular every file of every run it completed; and a campaign whose main folder exists already raises FileExistsError and changes nothing.",
  "all sequences of campaigns of any of the five methods, with any arguments, random sources and oracles, all crash points of each, all file systems in which nothing lies under a missing path",
  "a test runs one campaign into a fresh folder; the claim is about every history of campaigns and every crash point",
  [VE+"Vehicle.runMonteCarlo", VE+"Vehicle.runMonteCarlo2", VE+"Vehicle.runMonteCarloD", VE+"Vehicle.runMonteCarloD2", VE+"Vehicle.runMonteCarloD_Earth"])
p("C113", "Monte Carlo campaigns run at the same time do not disturb each other",
  "Several processes that run Monte Carlo campaigns at the same time into folders none of which lies in another one: under any interleaving of their file operations, and wherever any of them stops, each process has done a beginning of what its campaign does alone and finds under its folder exactly the files this leaves; completed runs are stored in full; a process that ends has done everything and ended as it does alone; the rest of the disk is unchanged; and if every process keeps being served, all end. Processes given the same folder: the one that makes the first step goes on as if alone, every other one raises FileExistsError at its first step and writes nothing.",
  "all finite lists of campaigns, all schedules, all points of time, all file systems that hold the parent folders and not the main folders",
  "a test cannot enumerate the interleavings of two processes",
  [VE+"Vehicle.runMonteCarlo", VE+"Vehicle.runMonteCarlo2", VE+"Vehicle.runMonteCarloD", VE+"Vehicle.runMonteCarloD2", VE+"Vehicle.runMonteCarloD_Earth"])
p("C114", "What must be set before what on a new vehicle, and in which order",
  "On a newly made Vehicle, after any sequence of calls: a call that returns found everything it needs set by an earlier call - the initial state and the solver tolerance for every flight, the drag-modulation parameters for the two-configuration calls, the switch parameters and the target orbit for guided flights, gains and roll rate as soon as a cycle needs them - so nothing unset is ever used silently. Conversely, once these have been set, in whatever order and between whatever other calls, the call does exactly what it does on a fully configured vehicle, whatever the remaining settings. Setters of different kinds can be called in any order with the same result, and of two of the same kind the later one counts. Before setInitialState a flight raises TypeError and changes nothing, except that the drag-modulation calls have by then replaced ballistic and drag coefficient (and the searches the lift-to-drag ratio by 0); before the switch parameters are set a guided flight raises AttributeError, before the roll rate or the gains are set as soon as a cycle needs them; before setSolverParams a propagation raises AttributeError and changes nothing; but a guided flight that has no glide cycle and no target orbit is flown to the end and raises only then, with the stored results already replaced.",
  "all vehicles, all finite sequences of setters, propagations, searches and guided flights with any arguments, all integrators and root finders, all orders of the setters",
  "tests call the setters in one fixed order on one object; the claim is about every history of calls",
  [VE+"Vehicle.__init__", VE+"Vehicle.setInitialState", VE+"Vehicle.setSolverParams", VE+"Vehicle.setDragModulationVehicleParams", VE+"Vehicle.setMaxRollRate", VE+"Vehicle.setTargetOrbitParams", VE+"Vehicle.setEquilibriumGlideParams", VE+"Vehicle.setDragEntryPhaseParams", VE+"Vehicle.propogateEntry", VE+"Vehicle.propogateGuidedEntry", VE+"Vehicle.propogateGuidedEntryD"])
p("C115", "Running totals, the bank angle and the mission clock in rounded arithmetic",
  "With every arithmetic operation rounded as IEEE binary64 does (no overflow): a running total of a nonnegative rate over times that never fall (heat load, data volume) starts at 0, never falls, and at its k-th point is within ((1+e)^(k+3) - 1) of itself, plus 2k underflow units, of the exact trapezoid integral; the commanded bank angle stays between minus one roll step and 180 degrees plus one roll step however many commands in 0..180 degrees are given, and is a whole number of rounded roll steps from its start up to one rounding per command; the clock of a guided flight pieced together from n legs never falls and each of its times is within (1+e)^n - 1 of the exact one.  Without rounding these are the exact functions of the other properties.",
  "every rate and time list of machine numbers, every roll rate, step, start angle and sequence of commands, every list of legs, every rounding with the listed assumptions; binary64 with rounding to nearest is shown to be one, with e = 2^-53",
  "The claims bound an error that accumulates over arbitrarily many steps; a test sees one data set and cannot tell rounding from truncation error.",
  [VE+"Vehicle.propogateEntry", VE+"Vehicle.propogateEntry2", VE+"Vehicle.psuedoController", VE+"Vehicle.propogateEquilibriumGlide", VE+"Vehicle.propogateEntryPhaseD", TE+"Link.compute_data_volume"])
p("C116", "A vehicle in a session with Monte Carlo campaigns: what stays in force, and what a campaign needs",
  "Take any sequence of setters, atmosphere loadings, propagations, searches, guided flights, campaign setups and campaign runs on one vehicle. Two vehicles with the same configuration, the same campaign settings and the same disk give the same answers and exceptions and leave the same disk, whatever each has flown before. After calls that all returned, everything is what the setters put there, except that a campaign of at least one run has spoiled the initial state and the density of the atmosphere and, with drag modulation, left the ballistic coefficient after jettison; loading the atmosphere and setting the initial state again makes the vehicle as good as a fresh one. A run whose setup has never been called raises at its first sample (TypeError without any setup), after making its folder, which stays empty on disk; a drag run that meets only a lift setup even leaves the vehicle with the drawn density and initial state. After only the setup of another family the exception is AttributeError when the sample itself is good, but ValueError for a drag run after an Earth setup. The setups share their settings: after a lift setup and a later drag setup, a lift run takes all but LD, time step and atmosphere factor from the drag setup. A run after its own setup, whatever other calls but setups are made in between, is the campaign with exactly the settings of that setup, starting from the initial state of the moment of the setup even if it has been set anew since.",
  "every sequence of calls of any length, every vehicle, configuration, disk, random stream and integrator",
  "histories of unbounded length over all calls of the object",
  [VE+"Vehicle.setupMonteCarloSimulation", VE+"Vehicle.setupMonteCarloSimulationD", VE+"Vehicle.setupMonteCarloSimulationD_Earth", VE+"Vehicle.runMonteCarlo", VE+"Vehicle.runMonteCarlo2", VE+"Vehicle.runMonteCarloD", VE+"Vehicle.runMonteCarloD2", VE+"Vehicle.runMonteCarloD_Earth", PL+"Planet.loadAtmosphereModel"])
p("C117", "Unit conversions lose at most a few roundings, also over many guidance cycles",
  "The first sample reported by a propagation is the initial state the user set, up to the roundings of the conversions to SI units, to nondimensional units and back: seven for the altitude, measured against the altitude plus the planet's diameter, five for speed and downrange, four for angles, and the heat load exactly. The state handed from one cycle of a guided flight to the next is the state in which the last cycle ended, to the same accuracy, and over n such passes the deviations at most add up. In IEEE binary64 on a planet up to Jupiter's size each pass costs at most a micrometre of altitude, 0.1 nm/s of speed and 1e-12 degrees. Without rounding the conversions undo each other exactly.",
  "every rounding with bounded relative error and underflow, every planet, every initial state, every integrator state handed over, every number of passes",
  "all inputs, and accumulation over any number of cycles",
  [VE+"Vehicle.propogateEntry", VE+"Vehicle.propogateEntry_util", VE+"Vehicle.convertToPlotUnits", VE+"Vehicle.propogateEquilibriumGlide", PL+"Planet.computeR", PL+"Planet.nonDimState", PL+"Planet.dimensionalize"])
p("C118", "Result files say what was computed, down to the characters",
  "Every finite double or nan that a campaign writes in the default text format is read back as the very same number, and a whole column is read back as the same list; so two different lists of results never make the same file. At every crash point, the single-number files of every completed run and every closed summary file read back exactly. A summary file that was still being written either makes the reader raise ValueError, or gives the right numbers up to some place and at most one other number after them, never more numbers than there were. A file cut off within the exponent, before its first digit, is always refused. A wrong last number without any exception is possible for every column whose last number exceeds 10 in size.",
  "every binary64 number, every column of any length, every place at which the text can be cut off, every crash point of every campaign",
  "all doubles, all file lengths, all crash points",
  [VE+"Vehicle.runMonteCarlo", VE+"Vehicle.runMonteCarlo2", VE+"Vehicle.runMonteCarloD", VE+"Vehicle.runMonteCarloD2", VE+"Vehicle.runMonteCarloD_Earth"])
p("C119", "The orbit at atmospheric exit, as the machine computes it",
  "The semi-major axis, the eccentricity and the altitudes of apoapsis and periapsis that are computed from radius, inertial speed and inertial flight-path angle are those of the ellipse through that state, up to a bounded number of roundings: the semi-major axis loses accuracy in proportion to its ratio to the radius, and the eccentricity keeps at least half of its digits. In IEEE binary64 the eccentricity is within 1e-7, and within 1e-12 if it is at least 0.01; the apsis altitudes are then within 2e-12 of the semi-major axis (up to a hundred radii). The result is nan only if the eccentricity is below 1e-7, and for circular orbits this does happen: there is an orbit of the Earth for which the computed eccentricity is nan.",
  "every rounding with bounded relative error and underflow, every planet, every bound orbit, every radius, speed and flight-path angle",
  "all inputs; the rounding errors of a whole chain of formulas",
  [VE+"Vehicle.computeEnergyScalar", VE+"Vehicle.computeSemiMajorAxisScalar", VE+"Vehicle.computeAngMomScalar", VE+"Vehicle.computeEccScalar", VE+"Vehicle.compute_ApoapsisAltitudeKm", VE+"Vehicle.compute_PeriapsisAltitudeKm"])
p("C120", "What the figures of a vehicle and of a planet show",
  "After any session on a vehicle, makeBasicEntryPlots either refuses (nothing has been flown) or draws one flight that was really flown at that planet, all four panels point by point with the right units. It need not be the flight the user set up: after a search for a corridor limit the object carries the user's entry angle again but the figure shows the trial flown last, within the tolerance of the limit found (or at the upper end of the bracket when none was found); after a guided entry it shows only the last guidance cycle, its clock at zero again, and as soon as a cycle has been made part of the trajectory is missing. createQPlot flies a new flight, which replaces the stored one, and draws altitude against half density times speed squared; only 100 to 700 km and up to 12500 Pa are in view. checkAtmProfiles fails exactly for dh = 0 and for negative dh down to minus the top of the atmosphere, draws empty panels when dh is larger than the atmosphere, and otherwise draws the loaded profiles at evenly spaced altitudes, both ends included, at intervals always larger than the one asked for; the density drawn is the one flights use.",
  "every history of calls on a vehicle, including calls that raise; every planet, vehicle, atmosphere, integrator; every search and guided flight that returns; every h0 and dh",
  "all histories and inputs; what is on the screen after a history depends on every call before it",
  [VE+"Vehicle.makeBasicEntryPlots", VE+"Vehicle.createQPlot", PL+"Planet.checkAtmProfiles", VE+"Vehicle.findOverShootLimit", VE+"Vehicle.propogateGuidedEntry", VE+"Vehicle.propogateGuidedEntryD"])
p("C121","Apsis altitudes from the exit state are accurate, with every operation rounded",
"With a rounding after every arithmetic operation, and library sines, cosines, arc cosines and scalar products accurate to a few roundings, the apoapsis and periapsis altitudes reported for an atmospheric exit state are those of the Keplerian orbit the state is on, up to an explicit bound. In binary64, if the inertial speed is at least a tenth of the speeds it is put together from and the semi-major axis at most a hundred times the distance, the altitudes are within 1.6e-9 of the semi-major axis for eccentricities of at least 0.01 and within 4e-6 of it always; they are undefined only if the eccentricity is below 4e-6 or the motion within 3e-12 (in the sine of the flight-path angle) of vertical.",
"all exit states, planets, rounded arithmetics and libraries within the stated accuracy",
"a test compares a few altitudes with a tolerance and cannot bound the accumulated rounding error for every state, processor and library",
[VE+"Vehicle.compute_ApoapsisAltitudeKm",VE+"Vehicle.compute_PeriapsisAltitudeKm"])
p("C122","Reading a spreadsheet of interplanetary trajectories",
"Constructing Interplanetary from a sheet whose columns Lcdate, LC3, TOF and Avinf exist and whose launch dates are written as whole numbers yyyymmdd gives, row by row, exactly those calendar dates and the other columns unchanged; eight-digit numbers are accepted exactly if every one of them is a date of the calendar, otherwise ValueError is raised and nothing is read. One empty cell, or one number that is not whole, among otherwise numeric launch dates makes the constructor raise ValueError however many good rows there are, while among text dates an empty cell is just no date. A missing column raises KeyError naming the first missing one in the order Lcdate, LC3, TOF, Avinf, after the dates have been read. Dates without their zeros can be misread: the number 1000 y + 111, an unpadded 11 January of year y, is read as 1 November. On the plots' axis the dates are whole days counted from 1 January 1970, each next day is one further, and dates come in the order of the calendar.",
"every sheet, every number of rows, every date of the years 1000 to 9999, every printed form of non-whole numbers that contains a character other than digits and blanks",
"a test reads one spreadsheet; the claim is about every date of the calendar, every number of rows and any position of an empty cell",
[IN+"Interplanetary.__init__",IN+"Interplanetary.plot_TOF_vs_launch_date"])
p("C123","Table lookup as the machine computes it: exact at the rows, accurate between them, and when it can go below zero",
"A linear table (Monte Carlo density profile, measured density, launch performance) evaluated in binary64 with a rounding after every operation returns the tabulated value at a tabulated abscissa and the fill value outside exactly, whatever the rounding and whatever the order of the rows. Between two rows it goes steadily downwards or upwards as the rows do and stays within eight roundings of the neighbouring values of the exact interpolation. If the altitudes are whole metres, with a row at zero or none below it, a density at a non-negative altitude is never negative when no tabulated one is; if moreover each row is at least half its predecessor, a falling profile is read as a falling profile that stays between neighbouring rows. Without a row at zero this fails: a table with rows at -2000 m and 1000 m and no negative density gives a negative density at a positive altitude, and the convective heating there is nan.",
"every table of binary64 numbers with distinct abscissae and no underflowing slope, every binary64 query, every row order; accuracy also for fractional altitudes",
"the last bit of an interpolation differs from query to query; a test samples a few queries of one table",
[LA+"Launcher.launchMass",PL+"Planet.loadAtmosphereModel5",PL+"Planet.loadAtmosphereModel6",PL+"Planet.density",VE+"Vehicle.createDensityMeasuredFunction"])
p("C124", "Vehicles that share a planet object: what one does to the others",
  "Take several vehicles, some made with the same Planet object, and any interleaving of calls on them. A vehicle answers, and is left, exactly as if it were alone with a planet object of its own, as long as nobody else loads an atmosphere into its planet object, assigns that object's attributes or runs a Monte Carlo campaign; campaigns of vehicles with other planet objects reach a vehicle that runs none only through the disk. Loading an atmosphere through one vehicle loads it for all vehicles of the object and no others, and an assigned constant holds for all of them. A campaign that returned leaves every other vehicle of the object flying through the density of the campaign's last sample, with the temperature, pressure and sonic speed that were loaded, and changes nothing else of theirs but the disk. Campaigns themselves give the same answers and files whatever density others have left in the object.",
  "every number of vehicles and planet objects, every interleaving of setters, flights, searches, guided flights, atmosphere loadings, attribute assignments, campaign setups and campaign runs, every integrator, random stream and disk",
  "interference through a shared object appears only in particular interleavings of calls on different objects; tests make one vehicle per planet object",
  [VE+"Vehicle.__init__", VE+"Vehicle.runMonteCarlo", VE+"Vehicle.runMonteCarloD", PL+"Planet.loadAtmosphereModel"])
p("C125", "Small changes of the inputs, and small errors of the integrator, change a flight only a little",
  "Take a vehicle with a fixed drag coefficient at a built-in planet whose density profile is Lipschitz between the surface and the top of the atmosphere, and an exact solution of its equations of motion that stays strictly inside the atmosphere up to a time T. However small a difference eps (in km, km/s and degrees) is asked for, there is an allowance eta > 0 such that every flight, by propogateEntry or propogateEntry2 and at any tolerance, duration and step, reports up to T only points that differ from the exact solution by less than eps in altitude, speed, longitude, latitude, heading, flight-path angle and range, provided that the initial conditions and the bank angle differ by at most eta, the drag and lift per unit of mass and the density of the air at every altitude differ by at most eta, and the integrator returns values of a curve whose derivative misses the equations of motion by at most eta. In particular a flight computed without error and any such nearby flight report nearly the same at the same time. The same holds when the exact solution starts exactly at the top of the atmosphere, descending, for all nearby flights that do not start above the top; none of the points they report up to T is above the top.",
  "all built-in planets, vehicles with fixed drag coefficient, Lipschitz density profiles, initial conditions, bank angles, times T and solutions inside the atmosphere, differences eps, and all nearby vehicles, atmospheres, starts, bank angles and integrators; both versions of the propagation, all tolerances, durations and steps",
  "Tests compare a few perturbed flights; that some allowance works for every wanted accuracy, uniformly over all nearby inputs and integrators, is a statement about all of them.",
  [VE+"Vehicle.EOM", VE+"Vehicle.propogateEntry", VE+"Vehicle.propogateEntry2", VE+"Vehicle.solveTrajectory", VE+"Vehicle.solveTrajectory2"])
p("C126", "From every start in the air there is exactly one exact flight, and it goes on until the vehicle nears the edge of the model",
  "Where the atmosphere's density is Lipschitz between the surface and the top, as every linearly interpolated table is, the equations of motion have a solution from every start inside the atmosphere that moves, is not at a pole and is not at the attitude a little past the vertical where the equations divide by zero. For every margin m the solution goes on, for as long as asked, until it comes within m metres of the ground or the top, within m m/s of standstill, or within m (in the cosine) of a pole or of that attitude, or exceeds any speed named in advance; it is the only solution. A vehicle with a positive ballistic coefficient in air of nonnegative density that starts forwards never exceeds some speed, so the last exit does not occur. There is an integrator that makes no error, with which solveTrajectory and solveTrajectory2 return this solution sampled at the requested times whenever it lasts that long.",
  "all planets, all vehicles without user-defined drag, all Lipschitz atmospheres, all starts in the air, bank angles, margins, speeds, durations and time steps",
  "Whether the differential equation has a solution at all, and for how long, is a statement about every instant of a continuum; an integrator returns numbers whether or not a solution exists.",
  [VE+"Vehicle.EOM", VE+"Vehicle.solveTrajectory", VE+"Vehicle.solveTrajectory2", VE+"Vehicle.setInitialState", PL+"Planet.density"])
p("C127","The reported heat load is the time integral of the heating rate",
  "After a propagation the heat load stored at each point is what a user takes for the heat absorbed up to that time, although it is a running trapezoid sum. Along the exact flight the integral of the stagnation-point heating rate over time exists and is unique, and for every accuracy there is a time step below which the heat load of every propagation with an exact integrator, either version, any tolerance and any duration, is within that accuracy of the integral, at every reported point. This includes flights that pass the speeds (8 and 10 km/s at Venus, 9 km/s at Earth) at which the radiative correlations jump from one formula to the next.",
  "every planet, atmosphere profile with some air up to the top, vehicle, nose radius, start, bank angle, duration, accuracy; every exact integrator, every smaller time step, every point of the report",
  "A test compares sums at a few step sizes for one flight; it cannot show convergence to an integral, nor that one step bound serves all points and all smaller steps.",
  [VE+"Vehicle.propogateEntry", VE+"Vehicle.propogateEntry2", VE+"Vehicle.qStagTotal", VE+"Vehicle.qStagConvective", VE+"Vehicle.qStagRadiative"])
p("C128","Peaks read off a report never exceed the true peaks and approach them as the step shrinks",
  "Users read peak heating, peak load, peak dynamic pressure and the lowest altitude off the stored histories (max over the array). With an exact integrator every stored value is the true value of the flight at that time, so no stored value exceeds the true peak; and for every accuracy there is a time step below which every report that reaches the time of the peak has a value that close to it. The peaks exist. Excepted are a heating peak exactly at a speed where the radiative law jumps, and a net load of zero, next to which the reported load may not be a number.",
  "every planet, atmosphere profile, vehicle, start, bank angle, duration, accuracy; all five quantities; every exact integrator, either version, every smaller step",
  "A test sees one grid; that no peak slips between the samples for all small enough steps is a limit statement.",
  [VE+"Vehicle.propogateEntry", VE+"Vehicle.propogateEntry2", VE+"Vehicle.computeAccelerationLoad", VE+"Vehicle.computeAccelerationDrag", VE+"Vehicle.computeDynPres", VE+"Vehicle.qStagTotal"])
p("C129","A flight that leaves the atmosphere, or sinks below the trap altitude, is reported up to there, in a state that approaches the true one",
"Let a flight pass the top of the atmosphere climbing, at time T and in state x, having been inside until then. With an exact integrator, a propagation whose exit flag is +1 ends within one time step before T, and for small enough time steps the altitude, speed, position, heading, flight path angle and range of its last point are as close to x as wanted; a propagation that lasts a little longer than T has exit flag +1. Likewise, with flag -1, for a flight that sinks through the trap altitude. Every state at the top in which the vehicle climbs (and every one at the trap altitude in which it descends) is reached in this way, and there is an exact integrator with which all these flights are flown and flagged. The apoapsis and periapsis altitudes computed from the last point approach those of the Kepler orbit of the true exit state in the inertial frame, if that orbit is not parabolic.",
"every planet, vehicle with fixed drag coefficient, Lipschitz atmosphere, exit state, initial conditions, accuracy, exact integrator, time step below a bound that depends on the flight and the accuracy only, and duration",
"The claim is a limit over time steps along solutions of differential equations whose right-hand side jumps at the very altitude where the flight is cut off; tests see a few step sizes and no true exit.",
[VE+"Vehicle.propogateEntry",VE+"Vehicle.propogateEntry2",VE+"Vehicle.classifyTrajectory",VE+"Vehicle.truncateTrajectory",VE+"Vehicle.EOM",PL+"Planet.density",VE+"Vehicle.compute_ApoapsisAltitudeKm",VE+"Vehicle.compute_PeriapsisAltitudeKm"])
p("C130","Capture verdicts and corridor limits are about the true flight",
"hitsTargetApoapsis answers -1 for a flight that will come back from above the target altitude or not at all, and 1 for one that stays below it or is lost; the corridor searches bisect on these answers. With an exact integrator and small enough time steps the answer is right of the true flight: -1 when it leaves the atmosphere before the propagation ends, does not re-enter before then, and its energy is positive or its apoapsis above the target; 1 when the apoapsis is below the target, or when it sinks below the trap altitude (at every planet but URANUS). isCaptured likewise tells the sign of the energy the true flight leaves with. The second version judges by the inertial velocity and is right whenever the flight it stored is classified the way the true one ends. Hence the searches by overshoot, by undershoot and for drag modulation return an angle within their tolerance of the true boundary where there is a single one in the bracket, if none of the angles dividing the bracket into tolerance-sized parts is exactly on the boundary, and the corridor width is right to within the sum of the two tolerances. URANUS is an exception: its trap altitude and its 'too low' altitude are both 10 km, no kept point of a lost flight is below that, and a flight that plunges into it fast enough is reported as one that flies away.",
"every planet, vehicle with fixed drag coefficient, Lipschitz atmosphere, entry state, bank angle, target, duration, bracket and tolerance; every exact integrator and every time step below a bound that depends on these only; whatever the object flew before",
"The verdict is about the solution of a differential equation in the limit of small steps, and the searches ask for verdicts at angles that depend on earlier ones; tests see single answers and no true flight.",
[VE+"Vehicle.hitsTargetApoapsis",VE+"Vehicle.hitsTargetApoapsis2",VE+"Vehicle.isCaptured",VE+"Vehicle.findOverShootLimit",VE+"Vehicle.findUnderShootLimit",VE+"Vehicle.findEFPALimitD",VE+"Vehicle.computeTCW",VE+"Vehicle.classifyTrajectory",PL+"Planet.__init__"])
p("C131","Nearby flights leave, are lost and are judged alike",
"Real integrators are inexact, and masses, coefficients, densities and entry states are known to some accuracy only. Where the true flight of the nominal vehicle starts inside the atmosphere, or at its top and descending, and leaves it, or sinks below the trap altitude, every flight close enough to it does the same as far as the reports go: whenever the integrator solves the equations of a nearby vehicle from a nearby start not above the top at a nearby bank angle up to a small enough error in the derivatives, with a small enough time step, the propagation is flagged as left or as trapped like the nominal flight, and its last reported point is as near as one likes to the point, and the time, at which the nominal flight leaves or sinks. Hence hitsTargetApoapsis, hitsTargetApoapsis2 and isCaptured give the verdict that is true of the nominal flight, the corridor searches return an angle within their tolerance of the nominal boundary, and the corridor width is right to within the sum of the tolerances, although another vehicle was flown with an inexact integrator.",
"every planet, vehicle with fixed drag coefficient, Lipschitz atmosphere, entry state inside the atmosphere or descending at its top, bank angle, target, duration, bracket and tolerance; every vehicle, start not above the top, bank angle, integrator and time step within a bound that depends on the nominal flight only",
"Says that all integrators, vehicles and starts in a neighbourhood give the same verdict and nearby exit points; a test tries one member of it.",
[VE+"Vehicle.propogateEntry",VE+"Vehicle.propogateEntry2",VE+"Vehicle.hitsTargetApoapsis",VE+"Vehicle.hitsTargetApoapsis2",VE+"Vehicle.isCaptured",VE+"Vehicle.findOverShootLimit",VE+"Vehicle.findUnderShootLimit",VE+"Vehicle.findEFPALimitD",VE+"Vehicle.computeTCW",VE+"Vehicle.classifyTrajectory"])
p("C132","A flight that starts exactly at the top of the atmosphere, descending, is one flight, and it is the one reported",
"Entry states are usually given exactly at the top of the atmosphere, where the density of the code jumps. From every such start that descends, off the poles and off the singular attitude, the equations of motion have a solution that enters the atmosphere, and only one as long as it stays inside. With an exact integrator every reported point up to then is the state of that flight at its time; so the report at a given time (altitude, speed, position, angles, range, Mach number, load, heating rates) does not depend on the integrator, its tolerance, the version, the time step or the duration. There is an exact integrator with which both versions of the propagation return it, and store it while it stays above the trap altitude. C129 and C130 include these starts.",
"every planet, vehicle with fixed drag coefficient, Lipschitz atmosphere, start at the top or inside, bank angle, exact integrator, tolerance, version, time step and duration",
"The right-hand side is discontinuous at the start, where solutions of differential equations need not exist or be unique; a test sees one integrator's answer.",
[VE+"Vehicle.propogateEntry",VE+"Vehicle.propogateEntry2",VE+"Vehicle.solveTrajectory",VE+"Vehicle.solveTrajectory2",VE+"Vehicle.EOM",VE+"Vehicle.setInitialState",PL+"Planet.density",PL+"Planet.__init__"])
p("C133","Shallow entries skip out or dig in according to how the path of a level flight at the top bends",
"Take a start exactly at the top of the atmosphere and let the equations of motion give the rate of change of the flight-path angle of a level flight there. If it is positive, every entry from that start at a small enough angle leaves the atmosphere again, within as short a time and as few metres below the top as one likes; propogateEntry with an exact integrator flags it as left, and hitsTargetApoapsis says of it what is true of the level flight past the top: overshoot if its orbit would be unbound or have an apoapsis above the target, undershoot if below. If it is negative, every entry at a small enough angle goes on descending, ever more steeply, for a time that is the same for all of them, and is so reported. On the equator the rate is positive exactly when lift (half the density times the squared speed times lift-to-drag ratio over ballistic coefficient, times the cosine of the bank angle), centrifugal force and the rotation of the planet outweigh gravity with its second harmonic.",
"every planet, vehicle with fixed drag coefficient, Lipschitz atmosphere, start at the top of the atmosphere, bank angle, target, exact integrator and tolerance; every entry angle, step and duration within a bound",
"Says that an overshoot end of the entry corridor exists for every vehicle whose path bends up; a test tries single angles and cannot reach the limit of small ones.",
[VE+"Vehicle.propogateEntry",VE+"Vehicle.hitsTargetApoapsis",VE+"Vehicle.EOM",VE+"Vehicle.grbar",VE+"Vehicle.a_nbar",VE+"Vehicle.classifyTrajectory",VE+"Vehicle.setInitialState",PL+"Planet.density"])
p("C134","The capture verdict is the same for nearby starts, and between two entry angles with opposite verdicts there is one where it turns, which the corridor searches find",
"Starts close enough to that of a flight through the atmosphere have a flight too, for as long and as close to it as one likes. If a flight leaves the atmosphere and stays out, or sinks below the trap altitude, so do those from nearby starts, and what hitsTargetApoapsis should say of it (overshoot, undershoot, lost) it should say of them. No flight has two verdicts. So, going from an entry angle with one verdict towards an angle with the opposite one, there is a first angle strictly between them whose flight has no verdict, and all flights before it have the first verdict; if that flight leaves in time and stays out, it hits the target exactly (apoapsis at the target altitude) or leaves with zero energy, and conversely. The angle returned by findOverShootLimit, findUnderShootLimit and findEFPALimitD is closer than the tolerance to such an angle, and the width returned by computeTCW is the distance between two such angles to within the two tolerances, for nearly exact integrators and nearby vehicles, starts and small steps.",
"every planet (the searches: but Uranus), vehicle with fixed drag coefficient, Lipschitz atmosphere, start inside the atmosphere or descending at its top, bank angle, target, duration, search interval and tolerance; every start, integrator, vehicle and step within a bound",
"That a corridor limit exists at all, and that the search finds it, is a statement about a continuum of flights; a test flies finitely many.",
[VE+"Vehicle.hitsTargetApoapsis",VE+"Vehicle.findOverShootLimit",VE+"Vehicle.findUnderShootLimit",VE+"Vehicle.findEFPALimitD",VE+"Vehicle.computeTCW",VE+"Vehicle.propogateEntry",VE+"Vehicle.EOM",PL+"Planet.density"])
p("C135", "Nearby flights report nearby pressures, loads and heating rates",
  "Take a flight by an exact integrator that stays strictly inside the atmosphere of a built-in planet, or starts descending exactly at its top and then stays inside, with a fixed drag coefficient, where density and pressure are Lipschitz functions of altitude. However small a difference eps is asked for, there is an allowance eta > 0 such that every flight (propogateEntry or propogateEntry2, any tolerance, duration and step) that does not start above the top and whose start, bank angle, drag and lift per unit of mass, nose radius, density and pressure profiles differ by at most eta, and whose integrator misses the equations of motion by at most eta, reports at the same time a dynamic pressure, a stagnation pressure (atm) and a drag load (Earth g) that differ by less than eps. The net load, which the code reports as NaN for some lift vectors, also differs by less than eps, or is NaN in both, wherever it is not exactly 0. If there is air everywhere, the nose radius is positive, the vehicle moves and its speed is not one at which the radiative correlation changes from one formula to the next (8 and 10 km/s at VENUS, 9 km/s at EARTH), the convective, radiative and total heating rates (W/cm2) are numbers that differ by less than eps.",
  "all built-in planets, vehicles with fixed drag coefficient, Lipschitz atmospheres, starts, bank angles, exact integrators, flights inside the atmosphere or from its top, differences eps, points of the flight, and all nearby vehicles, atmospheres, starts, bank angles and integrators",
  "A jump of a reported load or heating rate between two almost equal inputs lies at particular speeds and lift vectors, which samples miss; the claim covers every point of every nearby flight.",
  [VE+"Vehicle.propogateEntry", VE+"Vehicle.propogateEntry2", VE+"Vehicle.qStagConvective", VE+"Vehicle.qStagRadiative", VE+"Vehicle.computeDynPres", VE+"Vehicle.computeStagPres", VE+"Vehicle.computeAccelerationLoad", VE+"Vehicle.computeAccelerationDrag"])
p("C136", "Nearby flights report nearly the same peak heating, loads, pressure and depth",
  "Take a true flight (a solution of the equations of motion) up to a time T that stays strictly inside the atmosphere of a built-in planet, or starts descending exactly at its top and then stays inside, with a fixed drag coefficient, air everywhere with a density that is a Lipschitz function of altitude, and a positive nose radius. Let M be the highest total heating rate (W/cm2), net load, drag load (Earth g), dynamic pressure (atm) or depth (km) along it, reached at time t0. For the heating the vehicle moves and its speed stays off the speeds at which the radiative correlation changes from one formula to the next; the net load stays a positive number. However small eps is, there is an allowance eta > 0 such that for every flight (propogateEntry or propogateEntry2, any tolerance and duration, steps below eta) that does not start above the top and whose start, bank angle, drag and lift per unit of mass, nose radius, density and pressure profiles differ by at most eta, and whose integrator misses the equations of motion by at most eta, every value reported up to T is a number below M + eps; and if the report reaches t0, some value reported no later than t0 is above M - eps.",
  "all built-in planets, vehicles with fixed drag coefficient, Lipschitz atmospheres, starts, bank angles, flights inside the atmosphere or from its top, times T, the five quantities, differences eps, and all nearby vehicles, atmospheres, starts, bank angles, steps and integrators",
  "The peak is read off a sampled list; that no sampling, integrator error or small change of the inputs makes it miss or exceed the true peak by more than eps is a statement about all nearby flights.",
  [VE+"Vehicle.propogateEntry", VE+"Vehicle.propogateEntry2", VE+"Vehicle.qStagTotal", VE+"Vehicle.computeDynPres", VE+"Vehicle.computeAccelerationLoad", VE+"Vehicle.computeAccelerationDrag"])
p("C137", "Nearby flights report nearly the same heat load",
  "Take a true flight (a solution of the equations of motion) up to a time T that stays strictly inside the atmosphere of a built-in planet, or starts descending exactly at its top and then stays inside, with a fixed drag coefficient, air everywhere with a density that is a Lipschitz function of altitude, and a positive nose radius, on which the vehicle keeps moving and its speed stays off the speeds at which the radiative correlation changes from one formula to the next. The total heating rate then has exactly one integral J over time (J/cm2), also from the very top. However small eps is, there is an allowance eta > 0 such that for every flight (propogateEntry or propogateEntry2, any tolerance and duration, steps below eta) that does not start above the top and whose start, bank angle, drag and lift per unit of mass, nose radius, density and pressure profiles differ by at most eta, and whose integrator misses the equations of motion by at most eta, the heat load reported at every time up to T is a number that differs from J at that time by less than eps.",
  "all built-in planets, vehicles with fixed drag coefficient, Lipschitz atmospheres, starts, bank angles, flights inside the atmosphere or from its top, times T, differences eps, and all nearby vehicles, atmospheres, starts, bank angles, steps and integrators",
  "The heat load adds up the errors of every step, of the integrator and of the inputs; that together they stay below any bound for all small enough steps and errors cannot be sampled.",
  [VE+"Vehicle.propogateEntry", VE+"Vehicle.propogateEntry2", VE+"Vehicle.qStagTotal", VE+"Vehicle.qStagConvective", VE+"Vehicle.qStagRadiative"])

with open('/verif/properties.jsonl','w') as f:
    for o in P: f.write(json.dumps(o)+"\n")
print(len(P))
