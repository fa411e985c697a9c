{"id": "C01", "title": "Accepted parameter combinations", "statement": "KeplerianOrbit succeeds exactly for these combinations: at least one of a/period is given; if both are given, neither rho_star nor m_star is; otherwise either no stellar parameter is given, or only rho_star, or exactly two of rho_star, r_star, m_star; at most one of t0/t_periastron; at most one of b/incl/duration on an eccentric orbit; ecc goes with exactly one description of omega; a circular orbit with duration needs b and period and excludes incl, rho_star and m_star. Every other combination raises ValueError whatever the numbers are (arguments whose units cannot be converted aside, see C04), except that a circular orbit with duration and b but no period raises TypeError.", "quantifier": "every subset of the optional arguments and every value for those supplied", "why_tests_cant": "tests try three rejected and five accepted combinations out of 64, each with one set of numbers", "anchors": ["src/exoplanet/orbits/keplerian.py:_get_consistent_inputs", "src/exoplanet/orbits/keplerian.py:KeplerianOrbit.__init__"]}
{"id": "C02", "title": "Derived parameters obey Kepler's third law and the density definition", "statement": "For every accepted combination with positive inputs the attributes of the orbit satisfy 4 pi^2 a^3 = G (m_star + m_planet) period^2 and rho_star = gcc_per_sun * m_star / (4/3 pi r_star^3), the supplied parameters are kept (converted to R_sun, M_sun, day), missing stellar values default to the Sun's, and m_total = m_star + m_planet.", "quantifier": "every accepted combination, all positive real inputs", "why_tests_cant": "an identity over all reals and all input combinations; tests check one numeric example per combination", "anchors": ["src/exoplanet/orbits/keplerian.py:_get_consistent_inputs"]}
{"id": "C03", "title": "Re-parameterisation round trip", "statement": "Feeding the derived attributes of an orbit back into the constructor reproduces the orbit (every attribute), for exactly those accepted combinations whose defaults are the orbit's values: two of the stellar parameters, or a and period with r_star, always do; leaving out r_star and m_star does if the radius is 1, and leaving out all three with only one of a and period does if the mass is 1 as well. In particular feeding back the arguments that were given does.", "quantifier": "all positive inputs, every pair of accepted combinations", "why_tests_cant": "tests follow one chain of four conversions at one point", "anchors": ["src/exoplanet/orbits/keplerian.py:_get_consistent_inputs"]}
{"id": "C04", "title": "Units on inputs are equivalent to pre-converted numbers", "statement": "Passing with_unit(x, U) for a, period, r_star, m_star, rho_star or m_planet builds the same orbit as passing the plain number x converted to the library's default unit, and an incompatible unit raises a conversion error. This holds for every construction that does not use `duration` on a circular orbit; with duration on a circular orbit the units of r_star, period and duration are NOT honoured when the semi-major axis is derived (a deviation from the documented behaviour).", "quantifier": "all values, all unit scale factors, all parameter combinations", "why_tests_cant": "tests use two units on two parameters; unit factors range over the positive reals", "anchors": ["src/exoplanet/orbits/keplerian.py:_get_consistent_inputs", "src/exoplanet/orbits/keplerian.py:KeplerianOrbit.__init__", "src/exoplanet/units.py:to_unit"]}
{"id": "C05", "title": "t0 and t_periastron are interchangeable", "statement": "Exactly one of t0 and t_periastron is used (giving both raises ValueError, giving neither means t0 = 0); building an orbit from t0 and rebuilding it from the resulting t_periastron gives the same t0, t_periastron, positions and velocities, and vice versa.", "quantifier": "all orbits, all times", "why_tests_cant": "identity over all real parameters", "anchors": ["src/exoplanet/orbits/keplerian.py:KeplerianOrbit.__init__"]}
{"id": "C06", "title": "t0 is the mid-transit time", "statement": "At t = t0 the planet's sky-plane position relative to the star lies on the line of conjunction: its projected distance from the star is exactly |b| * r_star, and its z coordinate is the distance times sin(incl), positive for incl in (0, pi). This holds for every 0 <= ecc < 1 and every omega with sin(omega) != -1. If sin_omega = -1, cos_omega = 0 are supplied exactly, t0 is instead the superior conjunction (a deviation).", "quantifier": "all eccentricities, arguments of periastron, inclinations, nodes", "why_tests_cant": "the exceptional direction is a single point of the parameter space; tests evaluate one orbit", "anchors": ["src/exoplanet/orbits/keplerian.py:KeplerianOrbit.__init__", "src/exoplanet/orbits/keplerian.py:KeplerianOrbit.get_relative_position"]}
{"id": "C07", "title": "Impact parameter and inclination are two encodings of the same orbit", "statement": "The orbit's b, incl and cos_incl always satisfy cos(incl) = cos_incl = b * r_star/a * (1 + e sin omega)/(1 - e^2); building from b and rebuilding from the resulting incl (and vice versa) gives the same orbit; giving both, or either with duration on an eccentric orbit, raises ValueError; giving none means b = 0 edge-on.", "quantifier": "all orbits with |cos_incl| <= 1", "why_tests_cant": "algebraic identity over all parameters", "anchors": ["src/exoplanet/orbits/keplerian.py:KeplerianOrbit.__init__"]}
{"id": "C08", "title": "Circular orbit from a transit duration", "statement": "For a circular orbit built from (duration, period, b, ror) the planet's projected distance from the star is exactly r_star*(1+ror) at t0 - duration/2 and t0 + duration/2 (and those plus any whole number of periods), is less in between and the planet is in front of the star throughout, for 0 < duration < period/2 and 0 <= b < 1 + ror.", "quantifier": "all durations in (0, period/2), all impact parameters below 1+ror, all times in the transit", "why_tests_cant": "tests check three times of one orbit", "anchors": ["src/exoplanet/orbits/keplerian.py:get_aor_from_transit_duration", "src/exoplanet/orbits/keplerian.py:KeplerianOrbit.__init__"]}
{"id": "C09", "title": "Eccentric orbit from a transit duration", "statement": "For an eccentric orbit built from (duration, a or stellar parameters) with a massless planet, the derived b satisfies sin^2(pi*duration*F/period) * (a sin incl)^2 = r_star^2 (1 - b^2) with F = (1 + e sin omega)/(1 - e^2), so the documented duration formula is inverted exactly for ror = 0. The radius ratio is ignored in this mode, and for a massive planet the barycentric a_planet is used instead of a (deviations).", "quantifier": "all parameters for which b is real", "why_tests_cant": "inverse-function identity over six real parameters; no test covers this branch", "anchors": ["src/exoplanet/orbits/keplerian.py:KeplerianOrbit.__init__"]}
{"id": "C10", "title": "Jacobians are the derivatives they claim to be", "statement": "jacobians['b']['cos_incl'] is the derivative of cos_incl with respect to b; jacobians['duration']['a'] and ['rho_star'] are the derivatives of those attributes with respect to duration; ['a_star'] and ['a_planet'] are the derivatives exactly when m_planet = 0 (for a massive planet they ignore the dependence of the total mass on a: a deviation).", "quantifier": "all circular orbits built from duration", "why_tests_cant": "derivatives at all points; the test evaluates at one point with a massless planet where the defect is invisible", "anchors": ["src/exoplanet/orbits/keplerian.py:KeplerianOrbit.__init__", "src/exoplanet/orbits/keplerian.py:get_aor_from_transit_duration"]}
{"id": "C11", "title": "Centre of mass is at rest at the origin", "statement": "At every time m_planet * get_planet_position + m_star * get_star_position = 0 componentwise, m_planet*get_planet_velocity + m_star*get_star_velocity = 0 and the same for accelerations (m_planet > 0), for each planet.", "quantifier": "all orbits, all times", "why_tests_cant": "holds for every real parameter; test uses tolerance at sample times", "anchors": ["src/exoplanet/orbits/keplerian.py:KeplerianOrbit.get_planet_position", "src/exoplanet/orbits/keplerian.py:KeplerianOrbit.get_star_position"]}
{"id": "C12", "title": "Relative motion is planet minus star", "statement": "get_relative_position = get_planet_position - get_star_position, and likewise for velocity and acceleration, at every time.", "quantifier": "all orbits, all times", "why_tests_cant": "identity over all reals", "anchors": ["src/exoplanet/orbits/keplerian.py:KeplerianOrbit.get_relative_position", "src/exoplanet/orbits/keplerian.py:KeplerianOrbit.get_relative_velocity", "src/exoplanet/orbits/keplerian.py:KeplerianOrbit.get_relative_acceleration"]}
{"id": "C13", "title": "The orbit is a conic with the star at a focus", "statement": "The distance |get_relative_position(t)| equals a(1-e^2)/(1+e cos f) = a(1 - e cos E), where E solves Kepler's equation E - e sin E = n (t - t_periastron); it lies between a(1-e) and a(1+e), both attained (periastron at t_periastron, apastron half a period later); rotating by omega, incl and Omega never changes it.", "quantifier": "all 0 <= e < 1, all orientations, all times", "why_tests_cant": "universally quantified over time and shape", "anchors": ["src/exoplanet/orbits/keplerian.py:KeplerianOrbit._get_position", "src/exoplanet/orbits/keplerian.py:KeplerianOrbit._rotate_vector"]}
{"id": "C14", "title": "Velocity is the time derivative of position", "statement": "get_planet_velocity, get_star_velocity and get_relative_velocity are at every t the exact time derivatives of the corresponding positions (no light delay), for circular and eccentric orbits.", "quantifier": "all orbits, all times", "why_tests_cant": "a derivative at all points; the test compares autodiff at 1000 samples of one orbit", "anchors": ["src/exoplanet/orbits/keplerian.py:KeplerianOrbit._get_velocity"]}
{"id": "C15", "title": "Acceleration is the time derivative of velocity and obeys Newton's law", "statement": "get_*_acceleration are the exact time derivatives of get_*_velocity, and the relative acceleration equals -G m_total * x/|x|^3. The star's acceleration is not a number when m_planet = 0 (deviation: it should be 0).", "quantifier": "all orbits, all times", "why_tests_cant": "derivative and force law at all points; the massless case is not tested", "anchors": ["src/exoplanet/orbits/keplerian.py:KeplerianOrbit._get_acceleration"]}
{"id": "C16", "title": "Energy and angular momentum are conserved", "statement": "For the relative motion, |v|^2/2 - G m_total/|x| = -G m_total/(2a) at all times (vis-viva), and the angular momentum vector x cross v is the same at all times with magnitude sqrt(G m_total a (1-e^2)) and z-component proportional to cos(incl) with the documented sign convention.", "quantifier": "all orbits, all pairs of times", "why_tests_cant": "conservation over unbounded time", "anchors": ["src/exoplanet/orbits/keplerian.py:KeplerianOrbit.get_relative_position", "src/exoplanet/orbits/keplerian.py:KeplerianOrbit.get_relative_velocity"]}
{"id": "C17", "title": "Motion is periodic", "statement": "Positions, velocities, accelerations and radial velocities at t + k*period equal those at t for every integer k (also with light delay).", "quantifier": "all orbits, times, integers k", "why_tests_cant": "unbounded k", "anchors": ["src/exoplanet/orbits/keplerian.py:KeplerianOrbit._get_true_anomaly"]}
{"id": "C18", "title": "Radial velocity is consistent and has the right sign", "statement": "get_radial_velocity(t) is minus the time derivative of the star's z coordinate (positive = receding), converted to the requested unit; passing K = K0*m_planet*sin_incl (times the conversion factor) gives the same curve; its values lie in K[e cos w - 1, e cos w + 1].", "quantifier": "all orbits, times, velocity units", "why_tests_cant": "identity over all reals", "anchors": ["src/exoplanet/orbits/keplerian.py:KeplerianOrbit.get_radial_velocity"]}
{"id": "C19", "title": "Separation and position angle are polar coordinates", "statement": "get_relative_angles returns (rho, theta) with rho >= 0, -pi < theta <= pi and (rho cos theta, rho sin theta) equal to the sky-plane x and y of get_relative_position; a parallax p scales rho by p*au_per_R_sun and leaves theta unchanged for p > 0. With light_delay=True the parallax argument is silently ignored (deviation).", "quantifier": "all orbits, times, parallaxes", "why_tests_cant": "branch cuts of arctan2 and the flag combination parallax+light_delay are untested", "anchors": ["src/exoplanet/orbits/keplerian.py:KeplerianOrbit.get_relative_angles", "src/exoplanet/orbits/keplerian.py:KeplerianOrbit._get_position"]}
{"id": "C20", "title": "Light-travel-time correction", "statement": "With light_delay=True the position is that at a retarded time t - delay where delay solves the light-travel equation exactly for a body (slower than light) whose line-of-sight motion is linear, and to first order in general; the code's vz is minus the true line-of-sight velocity. The quadratic (acceleration) term enters with the wrong sign, so delay does not solve the second-order equation (deviation); with m_planet = 0 the star's delayed position is NaN (deviation).", "quantifier": "all positions, velocities, accelerations and reference planes", "why_tests_cant": "order of accuracy is a statement about all small delays; the test tolerance hides the second-order term", "anchors": ["src/exoplanet/orbits/keplerian.py:KeplerianOrbit._get_retarded_position"]}
{"id": "C21", "title": "True anomaly solves Kepler's equation", "statement": "get_true_anomaly(M, e) returns f in (-pi, pi] such that tan(f/2) = sqrt((1+e)/(1-e)) tan(E/2) for the unique E with E - e sin E = M; it is 2 pi periodic and odd in M (away from the branch cut) and equals M modulo 2 pi when e = 0.", "quantifier": "all M, all 0 <= e < 1", "why_tests_cant": "transcendental equation over all reals", "anchors": ["src/exoplanet/orbits/keplerian.py:get_true_anomaly"]}
{"id": "C22", "title": "ecc=None and ecc=0 agree", "statement": "An orbit built without ecc/omega and one built with ecc=0 and any omega (sin omega != -1), with t0 given or left out and without duration, give identical t0, positions, velocities, accelerations and radial velocities at all times.", "quantifier": "all omegas, times, remaining parameters", "why_tests_cant": "separate code branches must agree for every omega", "anchors": ["src/exoplanet/orbits/keplerian.py:KeplerianOrbit.__init__", "src/exoplanet/orbits/keplerian.py:KeplerianOrbit._get_position", "src/exoplanet/orbits/keplerian.py:KeplerianOrbit._get_velocity"]}
{"id": "C23", "title": "Swapping the two bodies", "statement": "The orbit with star and planet exchanged (used for secondary eclipses) has planet position equal to the original star position and vice versa, at all times, for circular and eccentric orbits; exchanging twice restores the original motion. For a TTVOrbit the exchange always raises ValueError (deviation), so SecondaryEclipseLightCurve cannot be used with TTVs.", "quantifier": "all orbits, times, radii", "why_tests_cant": "tests check one circular and one eccentric orbit", "anchors": ["src/exoplanet/orbits/keplerian.py:KeplerianOrbit._flip"]}
{"id": "C24", "title": "in_transit is exact for circular orbits", "statement": "For a circular orbit with r_star + r < a an index is returned by in_transit(t, r) exactly when at that time some planet is in front of the star with projected distance at most r_star + r; if b > 1 + r/r_star the planet contributes no index; indices are strictly increasing and in range.", "quantifier": "all circular multi-planet systems, all time lists", "why_tests_cant": "iff over all times; boundary cases", "anchors": ["src/exoplanet/orbits/keplerian.py:KeplerianOrbit.in_transit"]}
{"id": "C25", "title": "in_transit never drops an exposure that overlaps a transit", "statement": "With exposure time texp, every t such that some instant of [t - texp/2, t + texp/2] is in transit is returned by in_transit(t, r, texp), for circular orbits and any texp >= 0; and nothing farther than texp/2 from a transit is returned.", "quantifier": "all texp, all times", "why_tests_cant": "set-inclusion over a continuum of instants, including wrap-around at half a period", "anchors": ["src/exoplanet/orbits/keplerian.py:KeplerianOrbit.in_transit"]}
{"id": "C26", "title": "in_transit for eccentric orbits is conservative", "statement": "If the contact-point solver reports failure for any planet, in_transit returns every index; if it returns the true contact anomalies of a transit containing t0 and the window padded by texp/2 extends less than half a period to either side, an index is returned exactly when the time, modulo the period, lies between ingress and egress padded by texp/2.", "quantifier": "all solver outputs, all time lists", "why_tests_cant": "the solver's failure flag cannot be provoked by sampling", "anchors": ["src/exoplanet/orbits/keplerian.py:KeplerianOrbit.in_transit"]}
{"id": "C27", "title": "Per-exposure texp arrays in in_transit", "statement": "in_transit(t, texp=array of len(t)) broadcasts texp against planets instead of times: with one planet the result equals using the largest exposure time (a superset, so light curves stay exact); with n >= 2 planets it raises a shape error unless len(t) = n or 1, and when len(t) = n exposure j is paired with planet j, so exposures overlapping a transit can be dropped (deviation).", "quantifier": "all numbers of planets and times", "why_tests_cant": "shape behaviour over all sizes; tests avoid the combination", "anchors": ["src/exoplanet/orbits/keplerian.py:KeplerianOrbit.in_transit", "src/exoplanet/light_curves/limb_dark.py:LimbDarkLightCurve.get_light_curve"]}
{"id": "C28", "title": "SimpleTransitOrbit geometry", "statement": "A SimpleTransitOrbit is in front of the star (z = 1) exactly when t is strictly within duration/2 of t0 + k*period for some integer k, and z = -1 otherwise; at t0 + k*period +- duration/2 its projected distance is r_star*(1+ror), at mid-transit it is b*r_star; x is linear in time with constant speed within each period; everything has period `period`; the star never moves; velocity methods raise NotImplementedError, and so does light_delay in get_relative_position and in_transit (only there).", "quantifier": "all parameters, all times, all k", "why_tests_cant": "modular arithmetic over all times", "anchors": ["src/exoplanet/orbits/simple.py:SimpleTransitOrbit"]}
{"id": "C29", "title": "SimpleTransitOrbit.in_transit agrees with its positions", "statement": "in_transit(t) (no r) returns exactly the indices of times with z = 1; in_transit(t, r) returns exactly those whose projected distance within the period is below r_star + r (for |b| < 1 + r/r_star, grazing equality excluded); with r = ror*r_star and duration <= period the two agree; with texp it returns exactly those within texp/2 of the window (while the window is shorter than the period).", "quantifier": "all parameters, all time lists", "why_tests_cant": "iff over all times", "anchors": ["src/exoplanet/orbits/simple.py:SimpleTransitOrbit.in_transit"]}
{"id": "C30", "title": "TTV regression is the least-squares ephemeris", "statement": "For transit_times with at least two distinct transit numbers, the period and t0 computed by TTVOrbit minimise the sum of squared residuals over all straight lines, uniquely; the ttvs are the residuals, sum to zero and are orthogonal to the transit numbers. With a single transit the result is NaN.", "quantifier": "all lists of times, all index lists", "why_tests_cant": "optimality against all alternatives", "anchors": ["src/exoplanet/orbits/ttv.py:TTVOrbit.__init__"]}
{"id": "C31", "title": "TTV round trip", "statement": "TTVOrbit(transit_times) and TTVOrbit(period, t0, ttvs) taken from it have the same transit_times and ttvs; TTVOrbit(ttvs) reports transit_times = t0 + period*index + ttv.", "quantifier": "all lists", "why_tests_cant": "tests check one random example", "anchors": ["src/exoplanet/orbits/ttv.py:TTVOrbit.__init__"]}
{"id": "C32", "title": "Times are assigned to the nearest transit", "statement": "For strictly increasing labelled transits, a time t is shifted by the labelled transit closest to it (clamped to the first/last outside the covered range; ties to the earlier one): the subtracted transit minimises |t - transit|.", "quantifier": "all increasing transit lists of any length, all times", "why_tests_cant": "minimality over an unbounded list; off-by-one at bin edges", "anchors": ["src/exoplanet/orbits/ttv.py:TTVOrbit._warp_times", "src/exoplanet/orbits/ttv.py:TTVOrbit._get_model_dt"]}
{"id": "C33", "title": "A TTVOrbit transits at its transit times", "statement": "At each labelled transit time the planet's position equals the position of the underlying Keplerian orbit at t0; with all ttvs zero a TTVOrbit gives the same positions and velocities as the KeplerianOrbit at all times.", "quantifier": "all transit lists, all times including outside the covered range", "why_tests_cant": "all times; tests check one grid", "anchors": ["src/exoplanet/orbits/ttv.py:TTVOrbit"]}
{"id": "C34", "title": "Unobserved transits are filled in", "statement": "all_transit_times has length max(index)+1, holds the given transit time at each observed index and t0 + period*k at the others; if an explicit period different from the regression period is supplied, the filled-in times follow that period rather than ttv_period (deviation). Negative transit_inds are accepted silently: labels count modulo the number of transits, the last time given for a place wins, so a transit numbered -1 overwrites, or is overwritten by, the last one and its time is lost (deviation). A single transit time given for several transit_inds is accepted silently: all of those transits get that time (deviation).", "quantifier": "all index lists", "why_tests_cant": "unbounded index sets", "anchors": ["src/exoplanet/orbits/ttv.py:TTVOrbit.__init__"]}
{"id": "C35", "title": "Expected transit times", "statement": "compute_expected_transit_times(min, max, P, t0) lists, in increasing order and without repetition, exactly the times t0 + k P (integer k) with min <= t0 + k P < max, plus nothing else; a transit falling exactly on max_time is omitted although the filter is inclusive (deviation); one list per planet.", "quantifier": "all P > 0, all t0, all intervals", "why_tests_cant": "completeness over all integers k; the boundary has measure zero", "anchors": ["src/exoplanet/orbits/ttv.py:compute_expected_transit_times"]}
{"id": "C36", "title": "TTVOrbit with light delay has the wrong shape", "statement": "For KeplerianOrbit the shape of positions does not depend on light_delay; for TTVOrbit with one planet and N times, light_delay=True yields an N x N result instead of N, and with n >= 2 planets it raises a shape error unless N is 1 or n (deviation).", "quantifier": "all numbers of times and planets", "why_tests_cant": "shape behaviour over all sizes", "anchors": ["src/exoplanet/orbits/ttv.py:TTVOrbit._warp_times", "src/exoplanet/orbits/keplerian.py:KeplerianOrbit._get_retarded_position"]}
{"id": "C37", "title": "TTVOrbit argument handling", "statement": "TTVOrbit raises ValueError when neither ttvs nor transit_times is given; when both are given transit_times is silently ignored; delta_log_period is used only with transit_times and no period (period = ttv_period*exp(delta)) and is otherwise silently ignored. A list in ttvs without any entry (a planet with no transits) is rejected with ValueError.", "quantifier": "all argument combinations", "why_tests_cant": "combinatorial; not tested", "anchors": ["src/exoplanet/orbits/ttv.py:TTVOrbit.__init__"]}
{"id": "C38", "title": "Limb-darkening coefficients encode the quadratic law, normalised", "statement": "The coefficient vector of LimbDarkLightCurve(u1,u2) represents I(mu) = 1 - u1(1-mu) - u2(1-mu)^2 in the solver's basis (1, mu, 4mu^2-2), divided by the disk-integrated flux pi(1 - u1/3 - u2/6) = 2 pi int_0^1 I(sqrt(1-r^2)) r dr.", "quantifier": "all u1, u2 with non-zero total flux", "why_tests_cant": "functional identity", "anchors": ["src/exoplanet/light_curves/limb_dark.py:get_cl"]}
{"id": "C39", "title": "Light curve is zero outside transit and between -1 and 0", "statement": "The relative flux is exactly 0 when the planet does not overlap the stellar disk (b >= 1 + r) or is not in front of it (los <= 0), is -1 when the star is fully covered, and lies in [-1, 0] whenever the intensity profile is non-negative (in particular for every u from quad_limb_dark).", "quantifier": "all impact parameters, radius ratios, physical limb darkening", "why_tests_cant": "bounds over a continuum", "anchors": ["src/exoplanet/light_curves/limb_dark.py:LimbDarkLightCurve._compute_light_curve", "src/exoplanet/light_curves/limb_dark.py:quad_limbdark_light_curve"]}
{"id": "C40", "title": "use_in_transit is only an optimisation", "statement": "get_light_curve(use_in_transit=True) equals get_light_curve(use_in_transit=False) at every time, with and without exposure-time integration (scalar texp, or per-exposure for a single planet), whenever in_transit returns a superset of the overlapping exposures. With several planets and per-exposure texp the default masked call raises a shape error (deviation).", "quantifier": "all orbits satisfying the in_transit contract, all times, exposure times, oversampling and orders", "why_tests_cant": "equality over all inputs", "anchors": ["src/exoplanet/light_curves/limb_dark.py:LimbDarkLightCurve.get_light_curve"]}
{"id": "C41", "title": "Exposure-time integration is a symmetric quadrature", "statement": "For every order in {0,1,2} and oversample, the number of evaluations is the next odd number, the weights are positive and sum to 1, all nodes lie in the exposure [t - texp/2, t + texp/2] and (for at least 3 nodes or order 0) are symmetric; order 0 is exact for linear fluxes, order 1 for linear, order 2 for cubic fluxes; every other order raises ValueError. With oversample <= 1 and order 1 or 2 the only node is the start of the exposure (deviation).", "quantifier": "all oversample values and orders, all fluxes of the stated class", "why_tests_cant": "quantifies over all functions and all node counts", "anchors": ["src/exoplanet/light_curves/limb_dark.py:LimbDarkLightCurve.get_light_curve"]}
{"id": "C42", "title": "Exposure-time integration converges", "statement": "For a flux with Lipschitz constant Lp over the exposure, the integrated value differs from the true exposure average by at most Lp*texp/(4 N) for order 0 with N nodes, by Lp*texp/(4(N-1)) for order 1 and by 5 Lp*texp/(18(N-1)) for order 2 (N >= 3).", "quantifier": "all Lipschitz fluxes, all N", "why_tests_cant": "limit statement", "anchors": ["src/exoplanet/light_curves/limb_dark.py:LimbDarkLightCurve.get_light_curve"]}
{"id": "C43", "title": "Radius ratio from transit depth", "statement": "get_ror_from_approx_transit_depth(delta, b) returns the ror >= 0 with delta = ror^2 * I(sqrt(1-b^2)) / (mean disk intensity), is the inverse of that map, and with jac=True also returns the exact derivative d ror/d delta.", "quantifier": "all delta > 0, |b| < 1, physical u", "why_tests_cant": "inverse function and derivative at all points", "anchors": ["src/exoplanet/light_curves/limb_dark.py:LimbDarkLightCurve.get_ror_from_approx_transit_depth"]}
{"id": "C44", "title": "Vectorised light curves mean what the scalar formula means", "statement": "The entry [i, j] of get_light_curve for times t and radii r is the (weighted average over exposure nodes k of the) flux for planet j at time t_i + texp_i*dt_k; shapes are (len t, number of planets); a radius vector whose length differs from the number of planets raises an error.", "quantifier": "all numbers of times, nodes and planets", "why_tests_cant": "index bookkeeping (pad, reshape, squeeze) over all sizes", "anchors": ["src/exoplanet/light_curves/limb_dark.py:LimbDarkLightCurve.get_light_curve"]}
{"id": "C45", "title": "Missing or invalid light-curve arguments", "statement": "get_light_curve raises ValueError for a missing orbit, r or t (reported in that order) and for order not in {0,1,2} when texp is given; order is not validated when texp is None; light_delay=True disables in-transit masking by default and raises NotImplementedError if masking is forced.", "quantifier": "all argument combinations", "why_tests_cant": "combinatorial", "anchors": ["src/exoplanet/light_curves/limb_dark.py:LimbDarkLightCurve.get_light_curve"]}
{"id": "C46", "title": "Secondary eclipse combination", "statement": "SecondaryEclipseLightCurve returns the flux-weighted mean (lc1 + f lc2)/(1+f), f = s (r/r_star)^2: 0 when neither body is occulted, between the two individual curves, at least -1, and equal to the primary curve when s = 0. Only the first two limb darkening coefficients of each body matter, and a vector with fewer than two is an IndexError. With two or more planets and a scalar r_star the unmasked call raises a shape error (deviation).", "quantifier": "all brightness ratios, radii, fluxes", "why_tests_cant": "identity over reals and sizes", "anchors": ["src/exoplanet/light_curves/secondary_eclipse.py:SecondaryEclipseLightCurve.get_light_curve"]}
{"id": "C47", "title": "Interpolated light curve", "statement": "InterpolatedLightCurve folds t into one period, never reads outside its table, reproduces the base light curve exactly at grid phases and for every cubic polynomial in between, has period `period`, and differs from a base curve of Lipschitz constant L by at most 3/4 * L * period/(num_phase + 1). For an array of times of any shape the entries are those for the list of all its times; the planet axis comes second for one planet and last for several. One planet given by length-1 vectors raises AssertionError, several planets sharing a scalar t0 raise IndexError, and so does a scalar t for one planet (deviations).", "quantifier": "all times, periods, grid sizes", "why_tests_cant": "index range over all times; exactness over all cubics", "anchors": ["src/exoplanet/light_curves/interpolated.py:interp", "src/exoplanet/light_curves/interpolated.py:InterpolatedLightCurve.get_light_curve"]}
{"id": "C48", "title": "Grid interpolation reproduces the data and multilinear functions", "statement": "regular_grid_interp returns the tabulated value at every grid point and reproduces every function that is multilinear (affine in each coordinate) exactly, at all coordinates inside or outside the grid, in any number of dimensions, for unevenly spaced increasing grids.", "quantifier": "any dimension, any grid sizes >= 2, all multilinear functions, all coordinates", "why_tests_cant": "unbounded dimension and size", "anchors": ["src/exoplanet/interp.py:regular_grid_interp"]}
{"id": "C49", "title": "Grid interpolation stays within the data", "statement": "Inside the grid the result is a convex combination of the 2^n surrounding values, so it lies between the smallest and largest of them; it is continuous across cell boundaries.", "quantifier": "any dimension, all coordinates inside the grid", "why_tests_cant": "bounds over a continuum, unbounded dimension", "anchors": ["src/exoplanet/interp.py:regular_grid_interp"]}
{"id": "C50", "title": "fill_value is used exactly outside the grid", "statement": "With fill_value set, a coordinate gets fill_value exactly when some component is <= the first or > the last grid point; in particular a point lying exactly on the lower edge of the grid is treated as outside although one on the upper edge is inside (deviation). Without fill_value the edge cells are extrapolated linearly. An axis with fewer than two grid points has no cells: evaluation raises an IndexError if the axis is empty or some coordinate does not exceed its only point, and on a grid of one point all coordinates above it give nan.", "quantifier": "all grids, all coordinates", "why_tests_cant": "boundary case of measure zero", "anchors": ["src/exoplanet/interp.py:regular_grid_interp"]}
{"id": "C51", "title": "Vector-valued grids", "statement": "For values with a trailing output dimension nout, weights are broadcast along the output axis: evaluation raises a shape error unless nout is 1, equals the number of test points, or the latter is 1; when nout = ntest the weights of the wrong test points are used, and when nout = 1 the result is ntest x ntest (deviations from the documented shape support). A single test point is correct.", "quantifier": "all nout, ntest", "why_tests_cant": "shape behaviour over all sizes", "anchors": ["src/exoplanet/interp.py:regular_grid_interp"]}
{"id": "C52", "title": "angle() returns the direction of its two latent normals", "statement": "The value of angle is in (-pi, pi], its sine and cosine are the normalised latent variables, it is unchanged by positive rescaling of the latents, and the starting value equals the requested initval for initval in (-pi, pi].", "quantifier": "all latent values, all initvals", "why_tests_cant": "branch cut; all reals", "anchors": ["src/exoplanet/distributions/distributions.py:angle"]}
{"id": "C53", "title": "unit_disk() is a bijection onto the unit disk with the right Jacobian", "statement": "For latent values in (-1,1)^2 the returned (x, y) satisfies x^2 + y^2 < 1; every point of the open disk is attained exactly once; the added potential is the log of the Jacobian determinant, so the density on the disk is uniform. The starting value of y is initval_y*(1 - initval_x^2) rather than initval_y (deviation).", "quantifier": "all latent values", "why_tests_cant": "bijection over a continuum", "anchors": ["src/exoplanet/distributions/distributions.py:unit_disk"]}
{"id": "C54", "title": "quad_limb_dark() covers exactly the physical limb-darkening laws", "statement": "For latent q in [0,1]^2 the coefficients satisfy u1 + u2 <= 1, u1 >= 0, u1 + 2 u2 >= 0, which are exactly the laws whose intensity is non-negative and does not increase towards the limb; conversely every such pair with u1+u2 > 0 arises from exactly one q, the Jacobian is constant so the density is uniform, and the starting value reproduces the requested one.", "quantifier": "all latent values", "why_tests_cant": "bijection between regions", "anchors": ["src/exoplanet/distributions/distributions.py:quad_limb_dark"]}
{"id": "C55", "title": "impact_parameter() is uniform on [0, 1+ror]", "statement": "The value is (1+ror) times a latent in [0,1], hence in [0, 1+ror], is onto, and starts at the requested initval when that is in range. With PyMC 5 the starting value is broadcast to the requested shape (that of ror if no shape is given); one that does not broadcast to exactly that shape is an error.", "quantifier": "all ror > -1, all latents", "why_tests_cant": "range over a continuum", "anchors": ["src/exoplanet/distributions/distributions.py:impact_parameter"]}
{"id": "C56", "title": "initval/testval handling", "statement": "For angle, unit_disk, quad_limb_dark, impact_parameter and bounded kipping13, an explicit initval wins over testval, exactly one of the two keywords is forwarded (named for the PyMC version in use), and all other keyword arguments are passed through unchanged, except lower/upper which are overwritten by the helper's bounds. Unbounded kipping13 and vaneylen19 forward both keywords untranslated (deviation).", "quantifier": "all keyword dictionaries", "why_tests_cant": "unbounded dictionaries", "anchors": ["src/exoplanet/distributions/distributions.py:_with_initval", "src/exoplanet/distributions/eccentricity.py:_with_initval"]}
{"id": "C57", "title": "Eccentricity prior selection", "statement": "kipping13 uses (alpha,beta) = (0.697,3.27) exactly when long is given and false and (1.12,3.09) otherwise (so 'full dataset' and 'long period' coincide); bounds given on one side default to 0/1 on the other and produce a truncated prior with start in the middle; 'observed' turns the prior into a potential; vaneylen19 always bounds ecc in [lower or 0, upper or 1] and under PyMC3 silently ignores 'observed'.", "quantifier": "all argument combinations", "why_tests_cant": "combinatorial", "anchors": ["src/exoplanet/distributions/eccentricity.py:kipping13", "src/exoplanet/distributions/eccentricity.py:vaneylen19"]}
{"id": "C58", "title": "vaneylen19 is the published mixture density", "statement": "The potential added by vaneylen19 is the log of (1-frac)*HalfNormal(sigma_g) + frac*Rayleigh(sigma_r) evaluated at ecc: the Weibull(2, sqrt(2) sigma) component equals the Rayleigh(sigma) density.", "quantifier": "all ecc >= 0, sigmas, fractions in (0,1)", "why_tests_cant": "density identity over reals", "anchors": ["src/exoplanet/distributions/eccentricity.py:vaneylen19"]}
{"id": "C59", "title": "Semi-amplitude estimates are exact on noiseless data", "statement": "If the radial velocities are exactly a sum of sinusoids of the given periods plus a constant, sampled so that the parameters are identifiable, estimate_semi_amplitude returns exactly each amplitude (signed amplitude when t0s is given, in the transit phase convention of get_radial_velocity), for any positive weights and any number of planets; in general it returns the weighted least-squares minimiser. It raises LinAlgError exactly when the times do not identify the parameters and IndexError when there are fewer t0s than periods.", "quantifier": "any number of planets and data points, all amplitudes, phases, weights", "why_tests_cant": "unbounded sizes", "anchors": ["src/exoplanet/estimators.py:estimate_semi_amplitude", "src/exoplanet/estimators.py:_get_design_matrix"]}
{"id": "C60", "title": "Unit handling of the RV estimators", "statement": "Plain numbers mean days and m/s, Quantities are converted, incompatible units raise; however a Quantity y without yerr always raises a unit conversion error (deviation from the docstring).", "quantifier": "all units", "why_tests_cant": "unit combinations untested", "anchors": ["src/exoplanet/estimators.py:estimate_semi_amplitude"]}
{"id": "C61", "title": "Minimum mass scaling", "statement": "estimate_minimum_mass returns K/28.4329 * m_star^(2/3) * (period/yr)^(1/3) Jupiter masses per planet, is linear in the data when t0s is given (and scales with the data otherwise), and on noiseless data of circular orbits equals m sin i * (m_star/m_total)^(2/3) up to the rounding of the constant.", "quantifier": "all periods, masses, data", "why_tests_cant": "power-law identity", "anchors": ["src/exoplanet/estimators.py:estimate_minimum_mass"]}
{"id": "C62", "title": "find_peaks finds the largest strict local maxima", "statement": "For non-negative, strictly monotone frequencies find_peaks considers exactly the interior samples strictly larger than both neighbours, returns at most max(1,max_peaks) of them in decreasing order of power with none skipped for a smaller one, raises ValueError only when max_peaks = 0 and there is none; where the three powers are positive the fitted frequency is the vertex of the parabola through the three log-powers, lies strictly between the midpoints to the neighbouring frequencies and its log_power is at least that of the sample, otherwise the fit is NaN. The reported index is one more than the sample's index (deviation), so bls_estimator's peak_info describes the neighbouring sample.", "quantifier": "all periodograms", "why_tests_cant": "selection over arbitrary arrays", "anchors": ["src/exoplanet/estimators.py:find_peaks", "src/exoplanet/estimators.py:bls_estimator"]}
{"id": "C63", "title": "next_pow_two", "statement": "next_pow_two(n) terminates and returns the smallest power of two that is >= n (1 for n <= 1).", "quantifier": "all integers n", "why_tests_cant": "termination and minimality for all n", "anchors": ["src/exoplanet/estimators.py:next_pow_two"]}
{"id": "C64", "title": "autocorr_function is the normalised linear autocorrelation", "statement": "For every series of length N the FFT computation equals sum_i (x_i - m)(x_{i+k} - m) / sum_i (x_i - m)^2 for all lags 0 <= k < N (no wrap-around), equals 1 at lag 0 and is bounded by 1 in absolute value; a constant series gives NaN.", "quantifier": "all series of all lengths", "why_tests_cant": "DFT identity for all N", "anchors": ["src/exoplanet/estimators.py:autocorr_function"]}
{"id": "C65", "title": "autocorr_estimator peak selection", "statement": "At most one period is returned; it is a strict local maximum of the smoothed autocorrelation, at least min_period and at most max_period; it is the first such maximum unless the second is higher; the max_peaks argument has no effect. A maximum within the limits is missed when a higher second maximum lies beyond max_period (deviation).", "quantifier": "all autocorrelation arrays", "why_tests_cant": "selection over arbitrary arrays", "anchors": ["src/exoplanet/estimators.py:autocorr_estimator"]}
{"id": "C66", "title": "bls_estimator search grid", "statement": "If frequency_factor is not given it is a power of two, the smallest for which the number of trial periods does not exceed the number of data points, and the search for it terminates; max_period and an explicit maximum_period are honoured (the latter wins); an explicit minimum_period keyword is discarded in favour of min_period and the keyword read instead is rejected by astropy with TypeError (deviation); the highest maximum is reported, with peak_info taken at the sample after it (deviation). Transit times are returned on the time axis of the data.", "quantifier": "all datasets and keyword dictionaries", "why_tests_cant": "termination; keyword combinations", "anchors": ["src/exoplanet/estimators.py:bls_estimator"]}
{"id": "C67", "title": "lomb_scargle_estimator", "statement": "min_period/max_period become frequency bounds 1/min_period, 1/max_period and replace bounds among the keywords; method and normalization keywords raise TypeError; the returned periodogram is never affected by filter_period, while peaks are found on power multiplied by a high-pass response in (0,1) that increases with frequency, is 0 at frequency 0 and equals 1/sqrt(2) at 1/filter_period.", "quantifier": "all periodograms and filter periods", "why_tests_cant": "aliasing and monotonicity", "anchors": ["src/exoplanet/estimators.py:lomb_scargle_estimator"]}
{"id": "C68", "title": "Units are attached at most once and never silently changed", "statement": "With a backend that creates a fresh tensor per constant: in any history of with_unit/has_unit/to_unit calls, a tensor's unit never changes once set; a second with_unit raises TypeError and changes nothing; with_unit on a float64 tensor tags that very tensor (visible through every alias), on other inputs a fresh one; to_unit returns an untagged value equal to value*factor, or the argument itself if untagged; converting back and forth is the identity. A backend that reuses constants breaks this, and the deprecated *_units keywords tag the caller's own tensor (deviations).", "quantifier": "all call histories, all aliasing patterns, all units", "why_tests_cant": "histories and aliasing", "anchors": ["src/exoplanet/units.py:with_unit", "src/exoplanet/units.py:has_unit", "src/exoplanet/units.py:to_unit"]}
{"id": "C69", "title": "Citations follow use", "statement": "After any sequence of component constructions in a model, get_citations_for_model lists every used component's references exactly once in first-use order after exoplanet and arviz, independent of repetition; models do not share citations; an unused model yields two empty strings; outside a model context registration is a no-op, except that kipping13 and vaneylen19 raise TypeError there; the key list in the text is sorted and contains exactly the keys of the used components plus arviz (and PyMC3/Theano when used).", "quantifier": "all construction histories over all models", "why_tests_cant": "histories", "anchors": ["src/exoplanet/citations.py:add_citations_to_model", "src/exoplanet/citations.py:get_citations_for_model"]}
{"id": "C70", "title": "Cited keys have BibTeX entries", "statement": "Every key cited for a component of this package has a BibTeX entry with that key in the returned bibliography; this fails only for the registered-but-external entries rebound, reboundias15 and reboundx (deviation).", "quantifier": "all sets of used components", "why_tests_cant": "all subsets", "anchors": ["src/exoplanet/citations.py:CITATIONS"]}
{"id": "C71", "title": "Backend selection", "statement": "EXOPLANET_FORCE_PYMC3=1 selects PyMC3 (error if absent); otherwise PyMC is preferred, PyMC3 is the fallback, and ImportError is raised exactly when neither is importable. All names the library uses come from the backend selected; with old and new versions of Theano alike they are found where that version has them.", "quantifier": "all environments", "why_tests_cant": "environment combinations", "anchors": ["src/exoplanet/compat.py"]}
{"id": "C72", "title": "duration_to_eccentricity", "statement": "The two eccentricity branches e = e1 +- e2 are exactly the real roots of u^2 (1 + e sin w)^2 = 1 - e^2 (u the scaled duration); valid branches are those in [0,1), characterised by the range of u; the Jacobian and marginal weights are right; the function nevertheless always raises TypeError because it calls the input resolver with eight arguments instead of six, and repaired it would still fail for two or more planets (deviations). Repaired, every variable of the submodels would be reported under its own name as the sum of its branch values weighted by the Jacobian weights, hence between the branch values in range and zero out of range, whatever the user's likelihood (the weights ignore it); but the lookup of those variables raises KeyError under PyMC 4 and later, which joins names with '::' (deviation).", "quantifier": "all durations, omegas", "why_tests_cant": "root-set identity; function untested", "anchors": ["src/exoplanet/orbits/dur_to_ecc.py:duration_to_eccentricity"]}
{"id": "C73", "title": "Planets in a multi-planet orbit are independent", "statement": "If the period (or a) has as many entries as there are planets (or there is one planet), column i of every position/velocity/acceleration/RV result depends only on planet i's parameters (and the shared star), equals the result of the single-planet orbit, and an orbit with n planets at N times gives shape (N, n) with singleton dimensions removed.", "quantifier": "all numbers of planets and times", "why_tests_cant": "unbounded sizes", "anchors": ["src/exoplanet/orbits/keplerian.py:KeplerianOrbit"]}
{"id": "C74", "title": "Keyword arguments are bound by name and unknown ones ignored", "statement": "Every keyword argument of KeplerianOrbit is bound to the parameter of that name; m_planet is 0 and everything else None by default. KeplerianOrbit silently ignores unknown keyword arguments (e.g. a misspelt parameter changes nothing and raises nothing), and a supplied `a` is silently overridden when duration is given for a circular orbit.", "quantifier": "all keyword names and values", "why_tests_cant": "unbounded keyword space", "anchors": ["src/exoplanet/orbits/keplerian.py:KeplerianOrbit.__init__"]}
{"id": "C75", "title": "TTVOrbit light curves and in_transit use the same shifted times as its positions", "statement": "Let o be a TTVOrbit of n planets. For planet j and time t let v be the transit of planet j closest to t. LimbDarkLightCurve.get_light_curve(orbit=o, use_in_transit=False) returns the limb-darkened flux of planet j at the position of its underlying Keplerian orbit at t0 + (t - v), evaluated anew at every node of an exposure when texp is given. in_transit(t, r, texp) of a TTVOrbit with circular orbits, or with eccentric orbits and a correct contact-point solver, returns in increasing order exactly the indices m for which some planet is in front of the star at some s within half the exposure of t[m], where the time of the orbit is t0 + (s - v) with v the transit closest to t[m]; if the solver reports failure it returns every index. Although the transit is chosen once per exposure there and at every node in the light curve, the default masked light curve equals the unmasked one: always for circular orbits, and for eccentric orbits when no exposure time is given or consecutive transits are further apart than the transit plus exposure and closer than twice the period less the transit.", "quantifier": "All TTVOrbits, transit times in increasing order, observation times, radii, exposure times, oversampling settings and limb-darkening coefficients", "why_tests_cant": "The closest transit switches at every midpoint between transits; an exposure straddling such a point is evaluated with two different transits by the integrator and one by the mask, so agreement depends on every combination of transit times, exposure and observation time.", "anchors": ["src/exoplanet/orbits/ttv.py:TTVOrbit._warp_times", "src/exoplanet/orbits/ttv.py:TTVOrbit._get_model_dt", "src/exoplanet/orbits/keplerian.py:KeplerianOrbit.in_transit", "src/exoplanet/light_curves/limb_dark.py:LimbDarkLightCurve.get_light_curve"]}
{"id": "C76", "title": "The combined position and velocity of star and planets", "statement": "KeplerianOrbit._get_position_and_velocity(t, parallax) for one time t returns two arrays of shape (n + 1, 3). Row 0 of the first is the sum over the n planets of get_star_position(t, parallax), rows 1..n are get_planet_position(t, parallax); the second holds the velocities in the same layout, multiplied by the same parallax factor (parallax times solar radii in au). For a vector of N times the arrays have shape (N + 1, n, 3), and row 0 is then not the star: it holds for each planet the sum over the N times of the star's displacement, while row m + 1 holds the planets at time m.", "quantifier": "All accepted KeplerianOrbits of any number of planets, circular or eccentric, all times, any number of times, with and without parallax", "why_tests_cant": "The axis that is summed is the planets' for one time and the times' for several; a test on one planet or one time cannot tell the two apart, and the values depend on every parameter.", "anchors": ["src/exoplanet/orbits/keplerian.py:KeplerianOrbit._get_position_and_velocity", "src/exoplanet/orbits/keplerian.py:KeplerianOrbit.get_star_position", "src/exoplanet/orbits/keplerian.py:KeplerianOrbit.get_planet_position"]}
{"id": "C77", "title": "Light curves combined with orbits", "statement": "LimbDarkLightCurve accepts every orbit class. SecondaryEclipseLightCurve accepts KeplerianOrbit only: get_light_curve raises ValueError for a TTVOrbit and AttributeError for a SimpleTransitOrbit or no orbit. Without radii it raises NotImplementedError. InterpolatedLightCurve around a LimbDarkLightCurve of a SimpleTransitOrbit, or around a SecondaryEclipseLightCurve of a KeplerianOrbit, returns at every time the cubic through the four neighbouring phases of the wrapped light curve: exact where that is a cubic in time, otherwise within 3/4 of a grid step times its steepest slope. Around a TTVOrbit of two or more planets it returns the four-point cubic through the first period after t0 of the timing-shifted light curve, repeated with the period: the timing variations of all other transits are lost, and a transit falling on a phase where that first period has no transit within two grid steps gets flux exactly 0 although the wrapped light curve is at mid-transit there. A TTVOrbit of one planet is rejected with an AssertionError. Interpolating an interpolated light curve of a KeplerianOrbit on the same grid returns the same table. InterpolatedLightCurve without orbit raises ValueError if num_planets is not given and AttributeError otherwise.", "quantifier": "All combinations of the three light curve classes and the three orbit classes, any number of planets, all times, radii, limb-darkening coefficients, grids, oversampling settings, masks", "why_tests_cant": "The classes meet only through duck-typed attributes; whether a combination works, fails or silently drops timing variations depends on every parameter and on the phase of every observation.", "anchors": ["src/exoplanet/light_curves/interpolated.py:InterpolatedLightCurve.get_light_curve", "src/exoplanet/light_curves/secondary_eclipse.py:SecondaryEclipseLightCurve.get_light_curve", "src/exoplanet/orbits/keplerian.py:KeplerianOrbit._flip", "src/exoplanet/orbits/ttv.py:TTVOrbit", "src/exoplanet/orbits/simple.py:SimpleTransitOrbit"]}
{"id": "C78", "title": "Impossible impact parameters", "statement": "An impact parameter b with |b| R_star larger than the star-planet distance at inferior conjunction is not an error. KeplerianOrbit accepts it; incl and sin_incl are NaN, cos_incl is b R_star divided by that distance, and every other attribute is that of the same orbit seen edge on. Every impact parameter within that distance gives an orbit with all attributes finite. For the impossible planet get_relative_position returns finite x and y and NaN z, all velocities along the line of sight and get_radial_velocity are NaN unless a semi-amplitude K is given, in which case the radial velocity is the usual one. Its column of a light curve is exactly 0, never NaN, with or without exposure times, and the columns of the other planets of the system are unaffected. For circular orbits in_transit returns exactly the times at which one of the other planets transits; for eccentric orbits it misses none of those, whatever the contact point solver answers for the impossible planet. The light curve restricted to in_transit equals the unrestricted one.", "quantifier": "All systems with any number of planets, any of which may have an impossible impact parameter; all orbits, circular or eccentric, times, radii, exposure times, limb-darkening coefficients, and all answers of the contact point solver for NaN arguments", "why_tests_cant": "A sampler proposes arbitrary impact parameters; that NaN stays confined to the impossible planet and turns into flux 0 rather than NaN must hold for every parameter combination and every time.", "anchors": ["src/exoplanet/orbits/keplerian.py:KeplerianOrbit.__init__", "src/exoplanet/orbits/keplerian.py:KeplerianOrbit._rotate_vector", "src/exoplanet/orbits/keplerian.py:KeplerianOrbit.in_transit", "src/exoplanet/light_curves/limb_dark.py:LimbDarkLightCurve._compute_light_curve"]}
{"id": "C79", "title": "Light curves with light-travel time", "statement": "On an orbit whose speed at periastron is at most two fifths of the speed of light, positions requested with light_delay=True are finite at every time: they are the undelayed positions at t - d, where d has the sign of minus the line-of-sight coordinate z(t), c|d| lies between 5/7 and 10/3 of |z(t)|, |d| is less than a quarter of the period, and c d = -z(t - d) up to a multiple of d^2. That light-travel equation has exactly one solution d0, and |d - d0| is at most (5/3) A d^2 / c with A = a (2 pi / P)^2 / (1 - e)^2 the acceleration at periastron; the line-of-sight coordinate returned differs from the exact one by at most the periastron speed times |d - d0|. LimbDarkLightCurve.get_light_curve(orbit, ..., light_delay=True) with the default mask returns, with or without exposure times, the flux of those delayed positions: the flux of the undelayed orbit at t - d, so that transits are seen early. SecondaryEclipseLightCurve with light_delay=True mixes the delayed light curve of the orbit with the delayed light curve of the flipped orbit. That second delay has the wrong sign: while the planet is behind the star the eclipse shown is the one that will happen a light-travel time later, so eclipses are shown early by about a/c instead of late by a/c, and the position shown is none the planet had in the last three quarters of a period.", "quantifier": "All accepted KeplerianOrbits of any number of planets below that speed, circular or eccentric, all times, radii, limb-darkening coefficients, exposure times and oversampling settings", "why_tests_cant": "The sign, size and finiteness of the delay must hold at every phase of every orbit; a test that compares with the undelayed light curve to within seconds, or only around the transit, cannot see a delay of the wrong sign at the eclipse.", "anchors": ["src/exoplanet/orbits/keplerian.py:KeplerianOrbit._get_retarded_position", "src/exoplanet/orbits/keplerian.py:KeplerianOrbit._flip", "src/exoplanet/light_curves/limb_dark.py:LimbDarkLightCurve.get_light_curve", "src/exoplanet/light_curves/secondary_eclipse.py:SecondaryEclipseLightCurve.get_light_curve"]}
{"id": "C80", "title": "The longitude of the node only turns the sky", "statement": "Passing a different Omega to KeplerianOrbit never changes which arguments are accepted or the error raised. With Omega the positions (with any parallax and light delay), velocities and accelerations of planet, star and their difference are those without it, rotated by Omega around the line of sight; radial velocities stay; get_relative_angles returns the same separation and a position angle larger by Omega. in_transit, LimbDarkLightCurve.get_light_curve and SecondaryEclipseLightCurve.get_light_curve return the same values, or the same error, for every setting of exposure time, oversampling, in-transit mask and light delay.", "quantifier": "All arguments of KeplerianOrbit, numbers or arrays of planets, all Omega (one or one per planet), all times, radii, limb-darkening coefficients and light curve settings; with light delay for orbits slower at periastron than two fifths of the speed of light", "why_tests_cant": "A test compares two values of Omega on one orbit; a wrong rotation order, a missed component or an Omega that leaks into the light curve through one code path only shows on other orbits, phases or settings.", "anchors": ["src/exoplanet/orbits/keplerian.py:KeplerianOrbit._rotate_vector", "src/exoplanet/orbits/keplerian.py:KeplerianOrbit.__init__", "src/exoplanet/orbits/keplerian.py:KeplerianOrbit.get_relative_angles", "src/exoplanet/orbits/keplerian.py:KeplerianOrbit.get_radial_velocity", "src/exoplanet/orbits/keplerian.py:KeplerianOrbit.in_transit", "src/exoplanet/orbits/keplerian.py:KeplerianOrbit._flip", "src/exoplanet/light_curves/limb_dark.py:LimbDarkLightCurve.get_light_curve", "src/exoplanet/light_curves/secondary_eclipse.py:SecondaryEclipseLightCurve.get_light_curve"]}
{"id": "C81", "title": "Orbits above and below the centre of the star look the same", "statement": "Replacing the impact parameter b by -b, or the inclination i by 180 degrees minus i, is accepted exactly when the original is (same error otherwise) and changes the attributes b, incl and cos_incl only by those signs: all other lengths, masses, density and times stay. Positions, velocities and accelerations are reflected at the line of nodes, the component along the line of sight and radial velocities stay. in_transit, light curves and secondary eclipses are the same; for eccentric orbits with the in-transit mask provided the external contact point solver only depends on the size of cos i.", "quantifier": "All KeplerianOrbits given by b, by incl, by a duration with b, or by neither (edge-on), except an eccentric orbit given by its duration; any number of planets, all times, radii, coefficients and light curve settings; with the mask for one exposure time for all times or none; with light delay for orbits slower at periastron than two fifths of the speed of light", "why_tests_cant": "The sign of b enters through b squared in several places and through cos i in others; a place where the sign is not squared only shows for the inputs that reach it.", "anchors": ["src/exoplanet/orbits/keplerian.py:KeplerianOrbit.__init__", "src/exoplanet/orbits/keplerian.py:KeplerianOrbit._rotate_vector", "src/exoplanet/orbits/keplerian.py:KeplerianOrbit.in_transit", "src/exoplanet/orbits/keplerian.py:get_aor_from_transit_duration", "src/exoplanet/light_curves/limb_dark.py:LimbDarkLightCurve.get_light_curve", "src/exoplanet/light_curves/secondary_eclipse.py:SecondaryEclipseLightCurve.get_light_curve"]}
{"id": "C82", "title": "The origin of time does not matter", "statement": "Adding d to t0 or t_periastron (or passing t0=d when neither was given) is accepted exactly when the original is and adds d to the attributes t0 and t_periastron. Every position (any parallax, light delay), velocity, acceleration, relative angle and radial velocity at t + d equals the original at t. in_transit on the times t + d returns the same indices, and light curves and secondary eclipses at t + d have the same entries, or the same error.", "quantifier": "All arguments of KeplerianOrbit, all d, any number of planets, all times, radii, coefficients; light curves for all settings of oversampling, mask and light delay, with the mask for one exposure time for all times or none; with light delay for orbits slower at periastron than two fifths of the speed of light", "why_tests_cant": "Users pass times as BJD, BKJD or BTJD; that results do not depend on the offset must hold for every argument set, including those where t0 or t_periastron is derived.", "anchors": ["src/exoplanet/orbits/keplerian.py:KeplerianOrbit.__init__", "src/exoplanet/orbits/keplerian.py:KeplerianOrbit._warp_times", "src/exoplanet/orbits/keplerian.py:KeplerianOrbit._get_true_anomaly", "src/exoplanet/orbits/keplerian.py:KeplerianOrbit.in_transit", "src/exoplanet/orbits/keplerian.py:KeplerianOrbit._flip", "src/exoplanet/light_curves/limb_dark.py:LimbDarkLightCurve.get_light_curve", "src/exoplanet/light_curves/secondary_eclipse.py:SecondaryEclipseLightCurve.get_light_curve"]}
{"id": "C83", "title": "Transits measure densities and ratios, not sizes", "statement": "If the radius of the star, or its mass and no duration, is given, then multiplying every length given (a, r_star) by s > 0 and every mass by s^3 is accepted exactly when the original is; lengths and masses of the orbit grow by s and s^3 and period, density, impact parameter, inclination and times stay. Positions, velocities, accelerations and radial velocities in physical units grow by s, radial velocities with a given K stay. in_transit, light curves and secondary eclipses for planet radii multiplied by s are the same; for eccentric orbits with the in-transit mask provided the external contact point solver only depends on the ratio of its lengths. If neither radius nor mass of the star is given the star keeps its default size and this fails.", "quantifier": "All s > 0 and all arguments of KeplerianOrbit with a sized star, with or without units; any number of planets, all times, radii, coefficients and light curve settings without light delay; with the mask for one exposure time for all times or none", "why_tests_cant": "It relates two runs of every input; a wrong power or a constant that hides a length only shows away from one solar radius.", "anchors": ["src/exoplanet/orbits/keplerian.py:_get_consistent_inputs", "src/exoplanet/orbits/keplerian.py:KeplerianOrbit.__init__", "src/exoplanet/orbits/keplerian.py:KeplerianOrbit._get_position", "src/exoplanet/orbits/keplerian.py:KeplerianOrbit._get_velocity", "src/exoplanet/orbits/keplerian.py:KeplerianOrbit._get_acceleration", "src/exoplanet/orbits/keplerian.py:KeplerianOrbit.in_transit", "src/exoplanet/orbits/keplerian.py:KeplerianOrbit._flip", "src/exoplanet/light_curves/limb_dark.py:LimbDarkLightCurve.get_light_curve", "src/exoplanet/light_curves/secondary_eclipse.py:SecondaryEclipseLightCurve.get_light_curve"]}
{"id": "C84", "title": "Warnings change nothing but what is printed", "statement": "Unless a filter turns warnings into exceptions every call returns what it would return without warnings, and the deprecated names ImpactParameter and QuadLimbDark declare the same variables as impact_parameter and quad_limb_dark. An accepted KeplerianOrbit issues, in this order, a DeprecationWarning for each of m_planet_units and rho_star_units given and a UserWarning for a circular orbit with a duration and no ror, and nothing else; with filters that raise, the first such warning is raised. The orbit built for a secondary eclipse never warns. With Python's own filters a session shows the UserWarning once and nothing else: the DeprecationWarnings are attributed to the library and never shown to a script (deviation), and those of the aliases call the replacement deprecated instead of the alias (deviation).", "quantifier": "All warning filters, all arguments, all sequences of calls", "why_tests_cant": "Tests run under one filter; the claim is about every filter and every history of calls, since a warning is shown once per place.", "anchors": ["src/exoplanet/utils.py:deprecation_warning", "src/exoplanet/utils.py:deprecated", "src/exoplanet/distributions/__init__.py:ImpactParameter", "src/exoplanet/distributions/__init__.py:QuadLimbDark", "src/exoplanet/orbits/keplerian.py:KeplerianOrbit.__init__", "src/exoplanet/light_curves/limb_dark.py:LimbDarkLightCurve.__init__", "src/exoplanet/orbits/constants.py"]}
{"id": "C85", "title": "Reversing time reflects the argument of periastron", "statement": "KeplerianOrbit with omega replaced by pi - omega and t0 by 2T - t0 (everything else the same) is accepted when the original is; its t_periastron is 2T minus the original's for an eccentric orbit (for a circular one it is a quarter period before t0 in both), and at 2T - t its positions and accelerations are those of the original at t reflected across the sky direction at right angles to the line of nodes, its velocities are reflected and reversed, and its radial velocity has the opposite sign. Light curves and secondary eclipses on the reversed times have the same entries. A circular orbit is its own reverse about every conjunction, so its in_transit mask, light curves and secondary eclipses are symmetric about mid-transit and mid-eclipse. Two deviations: with order != 0 and oversample <= 1 an exposure is represented by its beginning alone and the light curve is not symmetric about mid-transit; with light_delay=True a circular orbit is not at mid-transit at t0.", "quantifier": "All arguments of KeplerianOrbit giving a physical orbit, all T, times, bodies and parallaxes without light delay; any number of planets, all radii, coefficients, exposure times and integration rules other than the one-point rule; in-transit masks for circular orbits and one exposure time for all times or none", "why_tests_cant": "It relates two runs at every pair of times; a wrong sign of an angle or of a contact point shows only in the asymmetry.", "anchors": ["src/exoplanet/orbits/keplerian.py:KeplerianOrbit.__init__", "src/exoplanet/orbits/keplerian.py:KeplerianOrbit._get_true_anomaly", "src/exoplanet/orbits/keplerian.py:KeplerianOrbit._rotate_vector", "src/exoplanet/orbits/keplerian.py:KeplerianOrbit.get_radial_velocity", "src/exoplanet/orbits/keplerian.py:KeplerianOrbit.in_transit", "src/exoplanet/light_curves/limb_dark.py:LimbDarkLightCurve.get_light_curve", "src/exoplanet/light_curves/secondary_eclipse.py:SecondaryEclipseLightCurve.get_light_curve"]}
{"id": "C86", "title": "Depth of a transit", "statement": "For a star of uniform brightness (u1 = u2 = 0) compute_light_curve returns minus the fraction of the star's disk that the planet's disk covers: -(r)^2 when the planet is wholly in front, in general the exact area common to the two disks over pi; get_light_curve with any orbit then has a flat bottom of depth (r / r_star)^2 wherever the planet is wholly in front during the exposure. For any law the depth lies between the least and the greatest brightness behind the planet times pi r^2 over the flux of the star (the lower bound when the planet is wholly in front); in particular the approximate depth that get_ror_from_approx_transit_depth inverts, evaluated at the outer and inner edge of the planet, encloses the true depth for a star nowhere negative and nowhere brighter towards its limb. For a star nowhere negative a larger planet never makes any entry of the light curve less deep.", "quantifier": "All impact parameters, radii and limb darkening coefficients with positive flux; all orbits that answer positions, any number of planets, times, exposure times and integration rules, evaluated at every time (use_in_transit=False; C40 says when the mask makes no difference)", "why_tests_cant": "The depth is an integral over the covered area for a continuum of geometries; tests compare a few points with another implementation.", "anchors": ["src/exoplanet/light_curves/limb_dark.py:LimbDarkLightCurve._compute_light_curve", "src/exoplanet/light_curves/limb_dark.py:LimbDarkLightCurve.get_light_curve", "src/exoplanet/light_curves/limb_dark.py:LimbDarkLightCurve.get_ror_from_approx_transit_depth"]}
{"id": "C87", "title": "A transit is deepest in the middle", "statement": "For a star that is nowhere brighter towards its limb (0 <= u1 and 0 <= u1 + 2 u2, exactly the quadratic laws with that property) and nowhere negative, a planet in front of the star at a smaller projected distance from its centre dims it at least as much. Hence without exposure times the light curve of a circular KeplerianOrbit and of SimpleTransitOrbit never gets deeper as the time from the nearest mid-transit grows, and equal distances from mid-transits give equal entries; and a circular orbit with a smaller |b| (everything else the same) has a light curve at least as deep at every time and for all exposure times. For a star brighter at its limb this fails.", "quantifier": "All coefficients, radii, projected distances and orbits as stated (a KeplerianOrbit with 0 <= sin(incl)), any number of planets, all times, evaluated at every time (use_in_transit=False; C40 says when the mask makes no difference)", "why_tests_cant": "Monotonicity over a continuum of geometries; a discontinuity or a wrong branch at a contact or at r = b shows only at particular values.", "anchors": ["src/exoplanet/light_curves/limb_dark.py:LimbDarkLightCurve._compute_light_curve", "src/exoplanet/light_curves/limb_dark.py:LimbDarkLightCurve.get_light_curve", "src/exoplanet/orbits/keplerian.py:KeplerianOrbit.get_relative_position", "src/exoplanet/orbits/simple.py:SimpleTransitOrbit.get_relative_position"]}
{"id": "C88", "title": "Light curves repeat every period", "statement": "in_transit, get_light_curve and SecondaryEclipseLightCurve.get_light_curve of a KeplerianOrbit give the same answer (the same entries or the same error) at times that differ from the first ones by whole numbers of periods, each time by a number of its own, with every exposure time, integration rule and (with slow planets) light delay; planets with different periods repeat column by column: the column of a planet is unchanged wherever the time moved by whole periods of that planet, whatever the other planets do. The same holds of SimpleTransitOrbit.", "quantifier": "All systems of any number of planets, any number of times, any whole numbers of periods (different from time to time), radii, limb darkening, exposure times, oversamplings and orders", "why_tests_cant": "Tests evaluate a few periods at a few times; folding with a modulo can be wrong for negative cycles, at the fold itself or once exposure times straddle it.", "anchors": ["src/exoplanet/orbits/keplerian.py:KeplerianOrbit.in_transit", "src/exoplanet/orbits/keplerian.py:KeplerianOrbit.get_relative_position", "src/exoplanet/orbits/simple.py:SimpleTransitOrbit.in_transit", "src/exoplanet/light_curves/limb_dark.py:LimbDarkLightCurve.get_light_curve", "src/exoplanet/light_curves/secondary_eclipse.py:SecondaryEclipseLightCurve.get_light_curve"]}
{"id": "C89", "title": "Mean, extremes and amplitude of radial velocities", "statement": "get_radial_velocity of a KeplerianOrbit averages to zero over every window of one period, with K and with the masses; with the masses its integral between two times is the displacement of the star along the line of sight between them, in the output unit. With K >= 0 the values lie between K (e cos w - 1) and K (e cos w + 1) and both values are attained in every window of one period, so that K is half the peak-to-peak range. Without K the values are those for K = 2 pi a sin(i) m_planet / (m_total P sqrt(1 - e^2)) converted to the output unit, which satisfies the mass function relation P (K sqrt(1-e^2))^3 m_total^2 = 2 pi G (m_planet sin i)^3.", "quantifier": "All physical orbits, semi-amplitudes, output units and windows", "why_tests_cant": "An average over a continuum and the attainment of extremes for every eccentricity and argument of periastron; tests compare a few orbits at sampled times.", "anchors": ["src/exoplanet/orbits/keplerian.py:KeplerianOrbit.get_radial_velocity", "src/exoplanet/orbits/keplerian.py:KeplerianOrbit.get_star_velocity"]}
{"id": "C90", "title": "Light curves change steadily", "statement": "Light curves have no jumps. For planets in front of the star the relative flux changes by at most W (4 r |b - b'| + |r^2 - r'^2|), where W = pi (1 + |u1| + |u2|) / (flux of the star), b and b' are the distances from the center of the star and r and r' the radius ratios. Two light curves of a KeplerianOrbit, with or without exposure times, at times ts and ts' differ at element m by at most W 4 (r/r_star) (v/r_star) |ts_m - ts'_m|, where v is the speed at periastron, provided r_star + r <= a (1 - e); the light curves for two radii differ by at most W |(r/r_star)^2 - (r'/r_star)^2| whatever the orbit. A SimpleTransitOrbit has the same bound with v the chord over the duration, provided r does not exceed ror r_star. For larger r its light curve jumps at the contacts and no constant will do (deviation).", "quantifier": "All limb darkening coefficients with a nonzero flux, orbits, radii, times, exposure times and stencils", "why_tests_cant": "A bound on the difference at every pair of times, arbitrarily close; a jump at one instant is invisible on a grid of times.", "anchors": ["src/exoplanet/light_curves/limb_dark.py:LimbDarkLightCurve.get_light_curve", "src/exoplanet/orbits/keplerian.py:KeplerianOrbit.get_relative_position", "src/exoplanet/orbits/simple.py:SimpleTransitOrbit.get_relative_position"]}
{"id": "C91", "title": "Depth and time of secondary eclipses", "statement": "In a light curve from SecondaryEclipseLightCurve with flux ratio F = s (r/r_star)^2, exposed while the whole planet is behind the star the entry is exactly -F/(1+F), whatever the limb darkening; while it is wholly in front of a star of uniform brightness it is -(r/r_star)^2/(1+F); while the two disks do not overlap it is 0; and it never leaves [-F/(1+F), 0] while the planet is behind and [-1/(1+F), 0] while it is in front. The planet is behind the star, at projected distance |b| r_star (1 + e sin w)/(1 - e sin w), at the times t0 + P/2 + (P/pi) (atan(e cos w/sqrt(1-e^2)) + e cos w sqrt(1-e^2)/(1 - e^2 sin^2 w)) + k P; for a circular orbit this is half a period after each transit, and distance and side then mirror those half a period earlier at every time.", "quantifier": "all KeplerianOrbits of any number of planets, radii, limb darkening laws, surface brightness ratios, times, exposure times and integration rules; eclipse times for sin w not 1 or -1", "why_tests_cant": "identities in continuous parameters for every exposure rule and every eccentricity", "anchors": ["src/exoplanet/light_curves/secondary_eclipse.py:SecondaryEclipseLightCurve.get_light_curve", "src/exoplanet/orbits/keplerian.py:KeplerianOrbit._flip", "src/exoplanet/orbits/keplerian.py:KeplerianOrbit.get_relative_position"]}
{"id": "C92", "title": "Accuracy of exposure integration and interpolation", "statement": "For every system there is one continuous function of time per planet which get_light_curve tabulates at whatever times it is asked about without texp. With texp, each entry differs from the exact mean of that function over the exposure by at most S e/(4 N) for order 0, S e/(4 (N - 1)) for order 1 and 5 S e/(18 (N - 1)) for order 2, where N is oversample, e the exposure time and S = pi (1+|u1|+|u2|)/F * 4 (r/r_star) (v/r_star), F the integral of the limb darkened disk and v the peak orbital speed (or the chord over the duration for SimpleTransitOrbit); the same holds with the default masking of times out of transit of circular orbits. InterpolatedLightCurve differs from the light curve it replaces by at most 3/4 S P/(num_phase + 1). So both approximations converge as oversample and num_phase grow, at a known rate.", "quantifier": "all KeplerianOrbits whose planets stay clear of the star, and SimpleTransitOrbits of planets no larger than their ror; any number of planets, radii, limb darkening laws, times, exposure times, oversample >= 1 (>= 2 for orders 1 and 2), num_phase >= 0", "why_tests_cant": "an error bound uniform in all parameters, times and numbers of nodes against an integral", "anchors": ["src/exoplanet/light_curves/limb_dark.py:LimbDarkLightCurve.get_light_curve", "src/exoplanet/light_curves/interpolated.py:InterpolatedLightCurve.get_light_curve", "src/exoplanet/orbits/keplerian.py:KeplerianOrbit.get_relative_position", "src/exoplanet/orbits/simple.py:SimpleTransitOrbit.get_relative_position"]}
{"id": "C93", "title": "Estimates follow the data, not how it is written down", "statement": "Put the observations in any order, move the zero point of the times (and of t0s) by d, multiply the velocities by g and move their zero point, multiply the uncertainties by a common factor: estimate_semi_amplitude and estimate_minimum_mass return g times the same numbers (|g| times if t0s is not given), or fail with the same error. autocorr_function returns the same array for a nonzero multiple of the series plus a constant, and for the series in reverse. autocorr_estimator on times s x + d, with the limits multiplied by s, returns the same curve, with lags and period multiplied by s. bls_estimator on times x + d returns the same periodogram, peaks and peak_info except that every transit_time is d later.", "quantifier": "all data sets, periods (nonzero), transit times, weights, permutations and shifts, scale factors g (zero included for the velocities) and nonzero common factors of the uncertainties; for autocorr_estimator strictly increasing times and s > 0; any behaviour of astropy's BoxLeastSquares (whose result has one transit_time column) and of the Gaussian filter", "why_tests_cant": "an equality of two runs for all data sets and all transformations; solving the normal equations mixes all data", "anchors": ["src/exoplanet/estimators.py:estimate_semi_amplitude", "src/exoplanet/estimators.py:estimate_minimum_mass", "src/exoplanet/estimators.py:autocorr_function", "src/exoplanet/estimators.py:autocorr_estimator", "src/exoplanet/estimators.py:bls_estimator"]}
{"id": "C94", "title": "Accuracy and stability of grid interpolation", "statement": "Interpolating samples of a function F with regular_grid_interp inside the grid gives F up to the sum over the axes of L h / 2, where h is the largest step of the axis and L bounds the slope of F along it; and up to the sum of M h^2 / 8 if M bounds the second derivative along the axis. So refining the grid converges, at a known rate. The result is linear in the values. Inside the grid it grows with the values, and an error of the values of at most e changes it by at most e; outside of the grid, where the outermost cells are continued, this is not so.", "quantifier": "all numbers of axes, uneven grids, functions, values and arrays of test points", "why_tests_cant": "an error bound for all functions, dimensions and grids", "anchors": ["src/exoplanet/interp.py:regular_grid_interp", "src/exoplanet/interp.py:RegularGridInterpolator"]}
{"id": "C95", "title": "A circular KeplerianOrbit and a SimpleTransitOrbit with the same duration", "statement": "A circular KeplerianOrbit given by a duration, and the SimpleTransitOrbit with the same period, duration, t0, b, r_star and ror, put the planet in front of the star and its disk over the star's at exactly the same times. At mid-transit and at both contacts the planet is equally far from the centre of the star; strictly in between the simple, straight path is nearer, by at most half the chord times q / (1 - q), q = (pi duration / period)^2 / 6. So for a planet no larger than ror and a bright star that darkens to the limb, the light curve of the SimpleTransitOrbit is nowhere shallower, with or without exposure times; the two are equal at mid-transit and zero out of transit, and they differ by no more than a stated multiple of q / (1 - q): the simple orbit is a second-order approximation in duration / period.", "quantifier": "all periods, durations below half a period, impact parameters, radii, numbers of planets, times, exposure times and limb darkening", "why_tests_cant": "equality of intervals and a uniform error bound over all parameters and times", "anchors": ["src/exoplanet/orbits/simple.py:SimpleTransitOrbit", "src/exoplanet/orbits/keplerian.py:KeplerianOrbit", "src/exoplanet/light_curves/limb_dark.py:LimbDarkLightCurve.get_light_curve"]}
{"id": "C96", "title": "How much probability vaneylen19 assigns", "statement": "The density added by vaneylen19 is positive and integrates to one over all eccentricities from 0 to infinity, for any widths and any mixture fraction. Eccentricities end at 1, or at the bounds given, and the density is not renormalised there: the mass it leaves between two eccentricities is strictly between 0 and 1, given by a stated formula, and the wider the two parts are the less of it remains below a bound. With fixed=False this mass depends on the hyperparameters, so the eccentricity cannot be marginalised out to leave their prior as declared: large widths are silently weighted down.", "quantifier": "all widths, fractions, bounds, names, keyword arguments and values of the other variables", "why_tests_cant": "improper integrals over all parameters", "anchors": ["src/exoplanet/distributions/eccentricity.py:vaneylen19"]}
{"id": "C97", "title": "Exposures average the light curve, and consecutive exposures add up", "statement": "A light curve with exposure times never leaves the range that the light curve without them covers during the exposure, whatever the order and the oversampling. If an exposure is divided into M equal consecutive ones, the mean of their M fluxes equals the flux of the whole exposure exactly, provided the whole has the nodes of the parts: M times as many with order 0; M times as many intervals between nodes, neighbouring exposures sharing a node, with orders 1 and 2. So binned short exposures and one long exposure can be modelled interchangeably, with KeplerianOrbit (with or without light delay), TTVOrbit and SimpleTransitOrbit. Oversampling factors are made odd, so with order 0 no factor does this for an even M.", "quantifier": "all orbits, numbers of planets and times, exposure times, numbers of parts, orders and matching oversampling factors; light curves evaluated at every time (use_in_transit=False; C40 says when the mask makes no difference)", "why_tests_cant": "an identity between whole tables for all subdivisions and orders", "anchors": ["src/exoplanet/light_curves/limb_dark.py:LimbDarkLightCurve.get_light_curve"]}
{"id": "C98", "title": "Positional and keyword arguments of the orbit constructors mean the same", "statement": "KeplerianOrbit(v1, v2, ..., **kw) is the orbit of the call with all keywords in which v1, v2, ... carry the first names of the documented order (period, a, t0, t_periastron, incl, b, duration, ecc, omega, sin_omega, cos_omega, Omega, m_planet, m_star, r_star, rho_star, ror, model), and a call with too many positional arguments or with an argument given twice is a TypeError. TTVOrbit(v1, ..., ttvs=..., **kw) takes the same positional arguments with the same meaning, and without any of them is the call with keywords. Deviation: with transit_times instead of ttvs a call with a positional argument that would succeed with keywords is a TypeError, because the fitted period is passed on by name. SimpleTransitOrbit takes period, duration, t0, b, r_star, ror in this order, so that its second positional argument is the duration and not, as for KeplerianOrbit, the semi-major axis; it refuses, with a TypeError, names it does not know (which KeplerianOrbit ignores, C74), repeated arguments, too many of them, and calls without a period or a duration. Deviation: SimpleTransitOrbit ignores the units of its arguments, so that a period of 240 hours is one of 240 days, whereas KeplerianOrbit converts it to 10 days.", "quantifier": "every list of positional arguments, every list of keyword arguments without repetitions, numbers or tensors or None or units as values, any ttvs, transit_times and transit_inds", "why_tests_cant": "A test fixes one mixture of positional and keyword arguments; the claim is about every way of splitting any arguments between the two, and about every ill-formed call.", "anchors": ["src/exoplanet/orbits/keplerian.py:KeplerianOrbit.__init__", "src/exoplanet/orbits/ttv.py:TTVOrbit.__init__", "src/exoplanet/orbits/simple.py:SimpleTransitOrbit.__init__"]}
{"id": "C99", "title": "Small changes of the parameters have small effects", "statement": "Orbits, their motion and their light curves depend continuously on all parameters. If the arguments of KeplerianOrbit (the same ones given, in the same units) approach the arguments of a valid orbit, then they are accepted all along and a, period, rho_star, r_star, m_star, m_planet, a_star, a_planet, K0, ecc, sin_omega, cos_omega, b, incl, t_periastron and (away from omega = -90 degrees) t0 approach those of the limit, whichever of them were given and whichever derived. At times that approach a time, the positions of planet, star and planet relative to star (also with a parallax that approaches a limit), their velocities, the accelerations of bodies that move, and the radial velocity with a given or derived semi-amplitude approach those of the limit. The light curves of a system of planets, exposures averaged, approach those of the limit entry by entry when limb darkening coefficients, orbital parameters, radii, times and exposure times all approach a limit in which the planets stay clear of the star. Deviation: with t0 given (and not t_periastron) the orbit jumps at omega = -90 degrees exactly, because t0 is then the time of the occultation instead of the transit (C06), so that orbits with omega arbitrarily close to -90 degrees do not approach it. For an eccentric orbit given by a duration this holds where some impact parameter other than zero yields that duration (the number under the root of b is defined and positive). Not claimed: omega itself (it jumps by a full turn at 180 degrees), light curves of eccentric systems given by a duration, light travel time.", "quantifier": "every sequence of arguments, times, parallaxes, semi-amplitudes, radii, limb darkening coefficients and exposure times that converges, every number of planets, exposure rule and oversampling; light curves evaluated at every time (use_in_transit=False; C40 says when the mask makes no difference)", "why_tests_cant": "Continuity is a statement about all points arbitrarily close to any point; a test compares finitely many pairs and cannot exclude a jump (a branch of an inverse function, a threshold, a clamp) between them.", "anchors": ["src/exoplanet/orbits/keplerian.py:KeplerianOrbit", "src/exoplanet/orbits/keplerian.py:_get_consistent_inputs", "src/exoplanet/light_curves/limb_dark.py:LimbDarkLightCurve.get_light_curve"]}
{"id": "C100", "title": "Once per orbit in front of the star, once behind it", "statement": "For every KeplerianOrbit with sin(incl) > 0 there are times ta < tb < ta + period such that the planet is in front of the star (the z of get_relative_position is positive) during (ta, tb) and all intervals a whole number of periods later or earlier, behind it strictly between them, and in the plane of the sky exactly at their ends; t0 lies in (ta, tb) unless omega is exactly -90 degrees (where t0 is the time of the occultation, C06). The planet is in front for the share (acos d - d sqrt(1 - d^2))/pi of the period with d = ecc sin(omega)/sqrt(1 - ecc^2 cos(omega)^2): half of it if ecc sin(omega) = 0, less if it is positive, more if it is negative; a circular orbit is in front within a quarter period of t0. The planet is in front of the star and on the line through its centre at right angles to the line of nodes at t0 and whole periods from it, and at no other time. Light curves are exactly zero for all exposures that lie wholly between two passages in front.", "quantifier": "all arguments of KeplerianOrbit giving a physical orbit with sin(incl) > 0, all times; light curves of any number of planets, all radii, coefficients, exposure times and integration rules, evaluated at every time (use_in_transit=False; C40 says when the mask makes no difference)", "why_tests_cant": "That there is no other passage, and none anywhere along an orbit of any eccentricity, is a statement about every time and every orbit; a test samples finitely many times of finitely many orbits.", "anchors": ["src/exoplanet/orbits/keplerian.py:KeplerianOrbit.get_relative_position", "src/exoplanet/orbits/keplerian.py:KeplerianOrbit.__init__", "src/exoplanet/light_curves/limb_dark.py:LimbDarkLightCurve.get_light_curve"]}
{"id": "C101", "title": "Rounding errors stay small", "statement": "In every arithmetic whose operations (and the Kepler solver) return their exact result with a relative error of at most u, u <= 1/100, in particular in IEEE double precision with unbounded exponents (u = 2^-53), and for every KeplerianOrbit accepted with positive period, semi-major axis, stellar radius and mass and a non-negative planet mass: (a) the attributes fit together up to a few rounding errors: Kepler's third law within a relative error of u (17 + 4 |ln a|), rho_star with m_star and r_star within u (14 + 4 |ln r_star|), m_total = m_star + m_planet within 2u, n period = 2 pi within 5u, the semi-major axes of planet and star within 3u of their share of a, for circular orbits the scale of the velocities within 3u, the derivative of cos(incl) with respect to b within 4u of r_star / a, and t0 a quarter period after periastron within u (|t0| + |t_periastron| + 3 period). (b) With q = 1/(1 - ecc) and h = q^3 n (|t - t0| + |tref|), the angle swept since the reference transit, the positions of planet and star at time t are those which exact arithmetic gives for the same attributes, each component within 210 u a q (1 + h) (provided u q (6 + 8 h) <= 1/10; a being the semi-major axis of the body), the velocities within 85 u times their scale times (1 + h), and the radial velocity with a semi-amplitude K within 17 u K (1 + h): the error of an ephemeris grows in proportion to the time from t0, not faster. For circular orbits the constants are 11, 13 and 4 and nothing is provided. (c) The planet of a circular orbit is at t0 within u a (75 + 3 n (|t0| + |t_periastron|)) of the place of mid-transit, (0, -a cos(incl), a sin(incl)).", "quantifier": "all ways to round with a relative error of at most u, all arguments of KeplerianOrbit that are accepted and give positive sizes, |cos(incl)| <= 1 + u, 0 <= ecc < 1 and |sin_omega|, |cos_omega| <= 1 where given, all times; for eccentric orbits adding zero must be exact", "why_tests_cant": "A test compares the results for finitely many orbits and times with a tolerance chosen by hand; how large the error can become for some orbit, some time and some order of roundings is a statement about all of them.", "anchors": ["src/exoplanet/orbits/keplerian.py:KeplerianOrbit.__init__", "src/exoplanet/orbits/keplerian.py:KeplerianOrbit.get_relative_position", "src/exoplanet/orbits/keplerian.py:KeplerianOrbit.get_relative_velocity", "src/exoplanet/orbits/keplerian.py:KeplerianOrbit.get_radial_velocity", "src/exoplanet/orbits/keplerian.py:get_aor_from_transit_duration"]}
{"id": "C102", "title": "Undefined times, exposure times and radii do not contaminate other observations", "statement": "If some of the observation times are NaN or infinite, the positions, velocities, accelerations, angles and radial velocities returned by a KeplerianOrbit are NaN in the rows of those times, and every other row is exactly what it would be if the undefined times were replaced by any others. SimpleTransitOrbit.get_relative_position returns NaN for x only: y keeps its constant value and z is -1, as if the planet were behind the star. in_transit does not list an undefined time (KeplerianOrbit with eccentricity and TTVOrbit: unless the contact points are not found, in which case it lists all times). LimbDarkLightCurve.get_light_curve, for KeplerianOrbit, SimpleTransitOrbit and TTVOrbit, with or without the in-transit mask, with or without exposure times (mask: at most one exposure time for all), is exactly zero, not NaN, in the rows where the time or the exposure time is undefined, and every other row is unaffected. With the default mask, the light curve of planets on circular orbits whose radii are all undefined is zero as well. An InterpolatedLightCurve is less forgiving: one undefined time makes the whole call fail with IndexError (deviation).", "quantifier": "all numbers of planets and times, all patterns of undefined entries, all orbit parameters accepted by the constructor (SimpleTransitOrbit: sensible ones), all limb darkening coefficients, all oversampling factors and orders", "why_tests_cant": "A test tries one pattern of NaNs; that an undefined entry never leaks into another row, through masks, gathers, exposure grids and sums, is a statement about all patterns and sizes.", "anchors": ["src/exoplanet/orbits/keplerian.py:KeplerianOrbit.get_relative_position", "src/exoplanet/orbits/keplerian.py:KeplerianOrbit.in_transit", "src/exoplanet/orbits/simple.py:SimpleTransitOrbit.get_relative_position", "src/exoplanet/orbits/simple.py:SimpleTransitOrbit.in_transit", "src/exoplanet/orbits/ttv.py:TTVOrbit._warp_times", "src/exoplanet/light_curves/limb_dark.py:LimbDarkLightCurve.get_light_curve", "src/exoplanet/light_curves/limb_dark.py:LimbDarkLightCurve._compute_light_curve"]}
{"id": "C103", "title": "What radial velocities and positions on the sky determine about an orbit", "statement": "Two KeplerianOrbits return the same radial velocities at all times for semi-amplitudes K, K' > 0 if and only if K = K', the periods and eccentricities are equal, e cos(omega) and e sin(omega) are equal, and t0 is equal up to a multiple of the period (given that omega is -90 degrees for both or for neither, because t0 means something else there, C06). With the masses instead of K the same holds for the semi-amplitude that follows from them: masses, inclination and semi-major axis enter through it only, and the longitude of the node not at all. If the relative positions on the sky of two orbits agree at all times, then the semi-major axis, period and eccentricity agree, and the relative positions in three dimensions are either equal at all times or mirror images along the line of sight at all times. This ambiguity is real: for any accepted eccentric orbit given by t_periastron and incl, adding 180 degrees to both omega and Omega yields an accepted orbit with the same relative angles (separation and position angle), the same x and y, and opposite z and radial velocity. One velocity along the line of sight of the same sign removes it.", "quantifier": "all pairs of orbits accepted by the constructor with physical elements, all semi-amplitudes, all units of velocity, all times", "why_tests_cant": "That different parameters give different curves is a statement about all pairs of parameters and about whole curves; a test compares a few curves at a few times.", "anchors": ["src/exoplanet/orbits/keplerian.py:KeplerianOrbit.get_radial_velocity", "src/exoplanet/orbits/keplerian.py:KeplerianOrbit.get_relative_position", "src/exoplanet/orbits/keplerian.py:KeplerianOrbit.get_relative_angles", "src/exoplanet/orbits/keplerian.py:KeplerianOrbit.__init__"]}
{"id": "C104", "title": "How unit_disk, quad_limb_dark and impact_parameter distribute probability", "statement": "Give the latent variables of unit_disk their uniform density and multiply by the exponential of the potential that unit_disk adds. The sum of any function G(x, y) over them is then the integral of G over the unit disk with respect to area: the pair is uniformly distributed on the disk, and sqrt(x^2 + y^2) is below r with probability r^2. For quad_limb_dark, which adds no potential, the average of every continuous function of (u1, u2) is its integral over the triangle of physical laws with respect to area (the triangle has area 1): the laws with u1 + u2 at most s have probability s^2 and the mean law is u1 = 2/3, u2 = 0. For impact_parameter the average of every integrable function of the value is its average over the interval from 0 to 1 + ror.", "quantifier": "all accepted keyword arguments, all integrable (for quad_limb_dark: continuous) functions, all radii and bounds, all ror > -1, every entry of array-valued variables", "why_tests_cant": "A test can draw samples and compare a few histograms within sampling noise; that no part of the disk or the triangle is favoured is a statement about the integral of every function.", "anchors": ["src/exoplanet/distributions/distributions.py:unit_disk", "src/exoplanet/distributions/distributions.py:quad_limb_dark", "src/exoplanet/distributions/distributions.py:impact_parameter"]}
{"id": "C105", "title": "angle() makes all angles equally probable", "statement": "Give the two latent variables of angle() their standard normal densities (no mu, sigma, sd or tau among the keyword arguments) and multiply by the exponential of the potential that angle() adds. The total weight over the plane is finite and positive, and for every th between -pi and pi the points whose angle is at most th have the fraction (th + pi) / (2 pi) of it: the angle is uniformly distributed on (-pi, pi], whatever regularization >= 0 is chosen. Without regularization the total weight is one.", "quantifier": "all accepted names and keyword arguments without mu, sigma, sd, tau; regularization None or any array of numbers that are not negative; all th in [-pi, pi]; every entry of array-valued angles", "why_tests_cant": "Samples show uniformity only within noise and for one value of the regularization; here it is an integral over the plane for every bound and every real exponent.", "anchors": ["src/exoplanet/distributions/distributions.py:angle"]}
{"id": "C106", "title": "What a transit light curve determines", "statement": "For a planet on a circular orbit outside a star that shines everywhere, the light curve of get_light_curve is negative exactly between the first and last contact of each transit. Hence two planets whose light curves agree at all times, even around stars with different limb darkening, have the same period, the same transit times (t0 up to a multiple of the period) and the same duration. If in addition both stars have the same limb darkening, are nowhere brighter further from their centre and not dark at their edge, and either the ratio of the radii is known or the stars are uniform and one of the planets crosses its star with its whole disk (if it does so touching the edge from inside, both must), then the radius ratio r/r_star, the impact parameter up to its sign and a/r_star agree as well; this includes grazing transits if the ratio is known. If the planets also have the same mass in units of the mass of the star, so does the density of the star. Conversely, for any limb darkening, planets that agree in these quantities have the same light curve: absolute sizes and masses, the node and the other planets of the system do not matter.", "quantifier": "all accepted KeplerianOrbits with physical attributes and any number of planets, any planet of each whose orbit is circular, has sin(incl) > 0, transits and stays outside the star; all radii r > 0; all limb darkening coefficients with positive intensity; with or without the search for times in transit", "why_tests_cant": "It compares two light curves at all times and all pairs of parameter sets; a test can only sample either.", "anchors": ["src/exoplanet/light_curves/limb_dark.py:LimbDarkLightCurve.get_light_curve", "src/exoplanet/orbits/keplerian.py:KeplerianOrbit.__init__", "src/exoplanet/orbits/keplerian.py:KeplerianOrbit.get_relative_position", "src/exoplanet/orbits/keplerian.py:KeplerianOrbit.in_transit"]}
{"id": "C107", "title": "The lists given to TTVOrbit and the planets", "statement": "TTVOrbit(ttvs=..., transit_inds=..., **kw) with keyword arguments that KeplerianOrbit accepts is accepted if and only if transit_inds (if given) has as many lists as ttvs, there are no more lists than entries in period and in t0 (a scalar has none: a single planet must be given as a list of length one), and each list of ttvs has one value for every label, or a single one for all of them, while the largest label m is not negative and none is below -(m + 1). Too many lists, scalars and a different number of lists in transit_inds are an IndexError; values and labels of different number a shape error, no labels a ValueError, labels out of range an IndexError. With transit_times a missing list in transit_inds is an IndexError, but surplus lists are ignored (deviation). Fewer lists than planets are accepted: with a single list all planets are shifted by the transits of that one list, each relative to its own t0 (deviation); with several lists the orbit can be built but every position and velocity is a shape error (deviation).", "quantifier": "all lists of ttvs, transit times and labels, all keyword arguments, all numbers of planets and lists, all times", "why_tests_cant": "The claim is an equivalence over all combinations of list lengths and labels; tests cover a handful of well-formed ones.", "anchors": ["src/exoplanet/orbits/ttv.py:TTVOrbit.__init__", "src/exoplanet/orbits/ttv.py:TTVOrbit._get_model_dt", "src/exoplanet/orbits/ttv.py:TTVOrbit._warp_times"]}
{"id": "C108", "title": "What the light curve of a SimpleTransitOrbit determines", "statement": "For a planet of a SimpleTransitOrbit whose duration is shorter than its period and a star that shines everywhere, the light curve of get_light_curve is negative exactly around each mid-transit t0 + q*period, and for a total time equal to the duration if the radius r given to get_light_curve is ror*r_star or more, and for the shorter time duration*sqrt(((1+r/r_star)^2-b^2)/((1+ror)^2-b^2)) if it is less. Hence two such planets whose light curves agree at all times, even around stars with different limb darkening, have the same period, the same transit times and are in front of the star for the same time. If in addition r = ror*r_star for both, the star is nowhere brighter further from its centre and not dark at its edge, and either the ratio of the radii is known or the star is uniform and shows a full transit, then duration, ror and the impact parameter up to its sign agree as well. Conversely planets that agree in these and in r/r_star have the same light curve, whatever r_star and the other planets. Under the same conditions on the radii and the limb darkening no planet of a KeplerianOrbit on a circular orbit has the light curve of a SimpleTransitOrbit: the two models can be told apart.", "quantifier": "all SimpleTransitOrbits with positive period, duration and r_star and |b| <= 1 + ror for all planets, any number of planets, any planet of each that crosses the star; all radii r > 0; all limb darkening coefficients with positive intensity; with or without the search for times in transit; for the comparison with KeplerianOrbit any accepted circular orbit outside the star", "why_tests_cant": "It compares two light curves at all times and all pairs of parameter sets; a test can only sample either.", "anchors": ["src/exoplanet/light_curves/limb_dark.py:LimbDarkLightCurve.get_light_curve", "src/exoplanet/orbits/simple.py:SimpleTransitOrbit.__init__", "src/exoplanet/orbits/simple.py:SimpleTransitOrbit.get_relative_position", "src/exoplanet/orbits/simple.py:SimpleTransitOrbit.in_transit", "src/exoplanet/orbits/keplerian.py:KeplerianOrbit.get_relative_position"]}
{"id": "C109", "title": "Observations can be cut, joined and reordered", "statement": "What the orbits and light curves report for an observation depends on that observation alone, not on its place in the array of times, on the other times or on how many there are. If the same time occurs in two arrays (or twice in one), the rows of the positions, velocities, accelerations, separations, position angles and radial velocities of a KeplerianOrbit and of the positions and velocities of a TTVOrbit are the same for it, in_transit of a KeplerianOrbit, SimpleTransitOrbit or TTVOrbit lists it in both or in neither, and get_light_curve over any of them has the same row for it if the exposure times agree as well. Hence a data set may be processed in parts: in_transit of joined times is the list for the first part followed by the list for the second with the length of the first added, and a light curve of joined times is the light curves one after the other. This needs a single exposure time (or none) for in_transit and for light curves computed only at the times in transit: with an array of exposure times, whether in_transit lists an observation can depend on the exposure times of the other observations.", "quantifier": "all accepted KeplerianOrbits, SimpleTransitOrbits and TTVOrbits, any number of planets, all radii, all pairs of vectors of times of any lengths (for KeplerianOrbit and light curves including NaN and infinity), all parallaxes, all contact point solvers; for light curves all oversampling factors and integration orders, with and without the search for times in transit (with light_delay only without it)", "why_tests_cant": "It compares calls on all pairs of arrays of all lengths.", "anchors": ["src/exoplanet/orbits/keplerian.py:KeplerianOrbit.in_transit", "src/exoplanet/orbits/keplerian.py:KeplerianOrbit.get_relative_position", "src/exoplanet/orbits/keplerian.py:KeplerianOrbit.get_radial_velocity", "src/exoplanet/orbits/ttv.py:TTVOrbit._warp_times", "src/exoplanet/orbits/simple.py:SimpleTransitOrbit.in_transit", "src/exoplanet/light_curves/limb_dark.py:LimbDarkLightCurve.get_light_curve"]}
{"id": "C110", "title": "The same data on another grid", "statement": "regular_grid_interp depends on the data and not on how the grid is written down. (1) Permuting the axes (points, axes of values, columns of the coordinates) changes nothing. (2) Evaluating the interpolator on all points of a grid that has the old grid points and any others, inside or outside, and interpolating from there gives the same function everywhere. (3) A run of consecutive grid points on each axis, with the values at these points, gives the same results for coordinates within it. (4) Multiplying the coordinates of an axis by a positive factor and adding a constant, in the grid and in the test points, changes nothing. All this also with fill_value, in (2) if the ends of the axes stay the same and in (3) for points that are not filled in the part. (5) Changing the sign of some axes (and reversing their grid points and values) changes nothing without fill_value; with fill_value it does, since the lower end of an axis is filled and the upper is not (deviation, see C50).", "quantifier": "all numbers of axes, uneven grids of at least two points per axis, all values, all arrays of test points, all permutations, refinements, parts, factors and zero points", "why_tests_cant": "equalities between two interpolations for all grids, dimensions and points", "anchors": ["src/exoplanet/interp.py:regular_grid_interp", "src/exoplanet/interp.py:RegularGridInterpolator"]}
{"id": "C111", "title": "How a TTVOrbit moves between transits", "statement": "Between the half way points of neighbouring transits a planet of a TTVOrbit moves exactly as on the underlying KeplerianOrbit, shifted in time so that the nearest transit is on time, and where it is at a time does not depend on the other times asked for. get_*_velocity is the time derivative of get_*_position at every time, except half way between two transits that are not whole periods apart. There the motion jumps back by the time between the two transits; the value at the half way point itself belongs to the earlier transit, and positions are continuous there exactly if the two transits are whole periods apart (deviation: with real timing variations the positions are not continuous). Before the first transit and after the last the motion repeats after each `period`. Light curves, with or without exposure times, are nevertheless as steady as those of a KeplerianOrbit (C90) if, half way between each two transits, the planet loses the same light on both sides, and are not continuous otherwise; this holds for all circular orbits, for transits whole periods apart, and whenever the planet is not in transit half way.", "quantifier": "all systems of planets, all transit times in increasing order, circular and eccentric, all times, limb darkening coefficients, radii, exposure times and quadrature rules", "why_tests_cant": "derivatives, limits and Lipschitz bounds at all times for all lists of transits", "anchors": ["src/exoplanet/orbits/ttv.py:TTVOrbit._get_model_dt", "src/exoplanet/orbits/ttv.py:TTVOrbit._warp_times", "src/exoplanet/light_curves/limb_dark.py:LimbDarkLightCurve.get_light_curve"]}
{"id": "C112", "title": "Times of any shape", "statement": "Times may be a number or an array of any shape. With n planets the positions, velocities, accelerations, separations, position angles (with or without light travel time and parallax) and radial velocities of a KeplerianOrbit, the positions and velocities of a TTVOrbit and the positions of a SimpleTransitOrbit have the shape of the times with n appended and axes of length one removed; listed in row-major order the numbers depend on the list of the times alone and not on how the list is arranged in rows. get_light_curve(use_in_transit=False), also with light_delay=True for a KeplerianOrbit, returns the shape of the times with n appended (no axes removed) with the same list of numbers whatever the arrangement, without exposure times, with one exposure time, or with one for every time in an array of the same shape. Deviation: in_transit, and therefore get_light_curve with its default arguments, answers for vectors of times only; times with two or more axes are an IndexError, and for KeplerianOrbit and TTVOrbit a single number is too.", "quantifier": "all shapes with any number of axes of any lengths, all times (also infinite and NaN), all numbers of planets, all orbits, radii, limb darkening coefficients, exposure times and quadrature rules", "why_tests_cant": "there are infinitely many shapes with any number of axes, and the statement relates two calls with different shapes element by element", "anchors": ["src/exoplanet/orbits/keplerian.py:KeplerianOrbit._get_position", "src/exoplanet/orbits/keplerian.py:KeplerianOrbit._get_velocity", "src/exoplanet/orbits/keplerian.py:KeplerianOrbit.get_radial_velocity", "src/exoplanet/orbits/keplerian.py:KeplerianOrbit.in_transit", "src/exoplanet/orbits/simple.py:SimpleTransitOrbit.get_relative_position", "src/exoplanet/orbits/simple.py:SimpleTransitOrbit.in_transit", "src/exoplanet/orbits/ttv.py:TTVOrbit._warp_times", "src/exoplanet/light_curves/limb_dark.py:LimbDarkLightCurve.get_light_curve"]}
{"id": "C113", "title": "Rounding errors in SimpleTransitOrbit", "statement": "Let every arithmetic operation return its exact result with a relative error of at most u (2^-53 for double precision). Then the time since mid-transit that a SimpleTransitOrbit uses is off by at most E = u (|t - t0| + 2 |t0| + 10 period): the planet is put on the straight line of a transit that is the nearest one up to 2 E, with x off by at most speed (E + 8 u g period), where g = (1 + ror)^2 / ((1 + ror)^2 - b^2) is 1 for a central and large for a grazing transit (u g <= 1/200), and y by a relative error of 4 u. The sign of z, which says whether the planet is in front of the star, is right unless the time is within E + 2 u duration of a contact; in_transit without a radius is right unless the time is within E + 4 u (duration + texp) of the edge of the window, and with a radius r unless it is within E + 13 u (g + g_r) of the window's half-width, relative to that half-width, of the edge. Rounding never produces a NaN when u g <= 1/200; in double precision it never does for all |b| <= 1 + ror, the limit included.", "quantifier": "all error bounds u <= 1/100, all ways of rounding within that bound (also different ones for every operation and operands), all parameters with a positive period, duration and stellar radius, ror >= 0 and |b| < 1 + ror (<= for signs, in_transit and double precision), all times, radii and exposure times", "why_tests_cant": "a test runs one arithmetic on a few inputs; the error bound must hold for all inputs and times, also 10^6 days from t0", "anchors": ["src/exoplanet/orbits/simple.py:SimpleTransitOrbit.__init__", "src/exoplanet/orbits/simple.py:SimpleTransitOrbit.get_relative_position", "src/exoplanet/orbits/simple.py:SimpleTransitOrbit.in_transit"]}
{"id": "C114", "title": "Small changes of the parameters of a SimpleTransitOrbit have small effects", "statement": "Let the parameters of SimpleTransitOrbits and the times asked for approach limits. Then y and the distance from the star on the sky approach those of the limit; x does so except at times exactly half way between two transits, where it jumps from one side of the star to the other; z, which only says whether the planet is in front, equals that of the limit from some point on except at times exactly half a duration from mid-transit. Light curves of any number of planets, with or without exposure times, approach the light curve of the limit at all times, the contacts and half-way points included, when limb darkening coefficients, orbits, radii, times and exposure times all approach theirs and no planet's radius exceeds ror r_star in the limit. For a planet larger than that the light curve jumps at the contacts.", "quantifier": "all convergent sequences of parameters (optional ones given everywhere or nowhere) with positive periods, durations and stellar radii and |b| <= 1 + ror, all convergent times, all numbers of planets and times, all oversampling factors and orders", "why_tests_cant": "limits quantify over all sequences of parameters; a jump shows up only at single points, such as an exact contact or half-way time", "anchors": ["src/exoplanet/orbits/simple.py:SimpleTransitOrbit.__init__", "src/exoplanet/orbits/simple.py:SimpleTransitOrbit.get_relative_position", "src/exoplanet/light_curves/limb_dark.py:LimbDarkLightCurve.get_light_curve"]}
{"id": "C115", "title": "Small changes of the transit times and parameters of a TTVOrbit have small effects", "statement": "If the transit times given to a TTVOrbit approach limits, with the same labels, then so do the t0, period and TTVs it derives from them. If the transits of TTVOrbits, the parameters of the underlying orbits and the times asked for approach limits, then positions and velocities of planet, star and planet relative to star approach those of the limit, except at a time exactly half way between two consecutive transits that are not a whole number of periods apart, where the position jumps even if only the time changes. Light curves of any number of planets, with or without exposure times, approach that of the limit when limb darkening coefficients, radii, times and exposure times do so too, the planets stay clear of the star, and the flux is the same half the time between consecutive transits before and after the transit of the underlying orbit (always so on circular orbits). As in C99 an underlying orbit with omega = -90 degrees exactly is excluded in the limit, and an eccentric one given by a duration must have one that some nonzero impact parameter yields.", "quantifier": "all convergent sequences of transit times, TTVs and parameters accepted by TTVOrbit, all convergent times, all numbers of planets, transits and times, all labels of which two differ, all oversampling factors and orders; light curves at every time (use_in_transit=False)", "why_tests_cant": "limits quantify over all sequences of parameters; the selection of the nearest transit is a step function and a jump shows up only at single times", "anchors": ["src/exoplanet/orbits/ttv.py:TTVOrbit.__init__", "src/exoplanet/orbits/ttv.py:TTVOrbit._get_model_dt", "src/exoplanet/orbits/ttv.py:TTVOrbit._warp_times", "src/exoplanet/light_curves/limb_dark.py:LimbDarkLightCurve.get_light_curve"]}
{"id": "C116", "title": "Rounding errors in regular_grid_interp", "statement": "Let every arithmetic operation return its exact result with a relative error of at most u (2^-53 for double precision). Then regular_grid_interp with D axes returns, for every point inside the grid, a number that is off by at most ((1+u)^(2^D+1) (1+10u)^D - 1) M from the exact interpolation, M being the largest absolute value at the corners of the cells the point belongs to, and never a NaN. Beyond the ends of the grid the bound grows in proportion to the distance: it is multiplied by |1-y| + |y| for every axis, y being the distance from the lower corner of the cell in units of its size. With fill_value, exactly the same points are filled as without rounding errors. In double precision the data are reproduced exactly at the grid points, on any grid, if the values are machine numbers. Deviation: the results need not be between the values at the corners (as they are without rounding errors, C49) if all that is known is the relative error u.", "quantifier": "all error bounds u <= 1/100, all ways of rounding within that bound (also different ones for every operation and operands), all numbers of axes, all grids of at least two increasing points per axis, all values, all arrays of test points inside and outside; no overflow or underflow", "why_tests_cant": "a bound on the error holds for all grids, values and points and all combinations of rounding errors; tests sample a few and compare with a tolerance", "anchors": ["src/exoplanet/interp.py:regular_grid_interp"]}
{"id": "C117", "title": "Rounding errors in the distributions", "statement": "Let every arithmetic operation return its exact result with a relative error of at most u (2^-53 for double precision). Then angle() returns the direction of its two normal variables with a relative error of u, so that it can exceed pi by u pi at most; it starts within a few u of the requested angle and at exactly 0 by default. If moreover the number 1 is exact and no result of absolute value at most 1 is rounded past it, as in double precision, unit_disk() never returns NaN for x and the second variable anywhere in [-1, 1], the square of y is exact up to 7u, y has the right sign, x^2 + y^2 <= 1 + 7u, and the logarithm of the Jacobian added to the model is exact up to u (|its value| + 2/(1-x^2)). quad_limb_dark() returns coefficients that are exact up to 10u and 30u, with u1 >= 0, u1 + u2 <= 1 + 40u and u1 + 2 u2 >= -70u, and starts at the requested coefficients up to a relative error of 11u (u1) and 17u (u1 + u2 + |u1|) (u2). impact_parameter() is never negative, has a relative error of 4u and starts at the requested value with a relative error of 3u. Deviations: in double precision there are x and y from unit_disk(), with both variables strictly inside (-1, 1), whose sum of squares is greater than 1 and computed as 1, although the documentation promises a value less than 1; and u1 + u2 from quad_limb_dark() can be greater than 1.", "quantifier": "all error bounds u <= 1/100, all ways of rounding within that bound (also different ones for every operation and operands), all shapes and keyword arguments accepted, both versions of PyMC, all values of the random variables in their range, all radius ratios that are not negative; no overflow or underflow; PyMC's own transformations are not included", "why_tests_cant": "a bound on the error holds for all values of the random variables and all combinations of rounding errors; the deviations occur at few points that random tests do not hit", "anchors": ["src/exoplanet/distributions/distributions.py:angle", "src/exoplanet/distributions/distributions.py:unit_disk", "src/exoplanet/distributions/distributions.py:quad_limb_dark", "src/exoplanet/distributions/distributions.py:impact_parameter"]}
{"id": "C118", "title": "Rounding errors in light curves", "statement": "Let every arithmetic operation return its exact result with a relative error of at most u (2^-53 for double precision), and let the compiled solution vector be off by at most eps. Then, for every limb darkening law that is nowhere negative and never brightens towards the limb, compute_light_curve() returns the exact relative flux up to 300u + 3eps, and exactly 0 where the planet is not in front. get_light_curve() of an orbit that answers the positions P returns an N x n table of numbers, no NaN, within 300u + 3eps + 280 u r (1+r) (r: planet radius over stellar radius) of the exact fluxes at P; with exposure times the weighted mean over K nodes adds a factor (1+u)^(K+2) and as much as the flux changes between the rounded and the exact times of the nodes. For SimpleTransitOrbit and planets not larger than its radius ratio, everything the orbit itself rounds included, the light curve is within 300u + 3eps + 8r(35u(1+r) + 4d) of the exact one, where the error d of the position in stellar radii grows like u times the speed of the planet times the time since t0 and the period, the latter multiplied by (1+ror)^2/((1+ror)^2-b^2); also at the contacts, where planets appear and disappear in front of the star. With the default use_in_transit=True and no exposure time or one for all times, times that the rounded in_transit() leaves out have an exact flux below 32 r m, where m, the overlap of planet and star that the mask may miss, grows like d and like u times the duration, the exposure time and the same factor: the light curve is within the same bound plus 32 r m. Deviation: for coefficients outside the physical range, with the flux of the star close to zero, no such bound holds.", "quantifier": "all error bounds u <= 1/100, all ways of rounding within that bound, all solution vectors within eps, all physical quadratic limb darkening laws, all orbits and numbers of planets and times, shapes of r, exposure times, oversampling factors and orders; for SimpleTransitOrbit all physical parameters with b < 1 + ror and u (1+ror)^2/((1+ror)^2-b^2) <= 1/200; for the other orbits use_in_transit=False, with the mask also u times the sum of that factor and ((r + r_star)^2)/((r + r_star)^2 - (b r_star)^2) <= 1/200 and exposure times >= 0; no overflow or underflow", "why_tests_cant": "a bound on the error holds for all parameters and all combinations of rounding errors; near the contacts the rounding of the times decides whether the planet is in front of the star at all, at times tests do not hit", "anchors": ["src/exoplanet/light_curves/limb_dark.py:LimbDarkLightCurve.get_light_curve", "src/exoplanet/light_curves/limb_dark.py:LimbDarkLightCurve._compute_light_curve", "src/exoplanet/light_curves/limb_dark.py:get_cl", "src/exoplanet/light_curves/limb_dark.py:quad_limbdark_light_curve", "src/exoplanet/orbits/simple.py:SimpleTransitOrbit.get_relative_position"]}
{"id": "C119", "title": "Rounding errors in light curves of Keplerian orbits", "statement": "Let every arithmetic operation return its exact result with a relative error of at most u (2^-53 for double precision), adding zero be exact, and the compiled solution vector be off by at most eps. Then the constructor of a KeplerianOrbit of n planets without a duration computes numbers, no NaN or infinity, and those of each planet from its own arguments alone. If the sizes come out positive, the limb darkening law is physical and eccentricities stay below 1 - 4u, then get_light_curve() with use_in_transit=False returns an N x n table of numbers, no NaN, within 300u + 3eps + 8r(35u(1+r) + 8 m/R) of the exact relative fluxes of the orbit with the same attributes moving exactly (r: planet radius over the stellar radius R), where the error m of the position is 210 u a s (1 + s^3 n(|t-t0| + |tref|)), with s = 1/(1-e); with exposure times the weighted mean over K nodes adds a factor (1+u)^(K+2) and the motion during the rounding error u(|t| + 2 texp) of the times of the nodes. The default use_in_transit=True gives the same at the times in_transit() returns and exactly 0 at all others. This holds where the precision suffices for the time (u s (6 + 8 s^3 n(|t-t0| + |tref|)) <= 1/10) and the planet keeps its distance from the star (its radius plus the stellar radius plus 3m below 4/5 of a(1-e)); also at the contacts, where the sign of the line of sight and the distance are rounded.", "quantifier": "all error bounds u <= 1/100, all ways of rounding within that bound, all solution vectors within eps, all physical quadratic limb darkening laws, all constructor arguments that give positive sizes, with eccentricity below 1 and sine and cosine of omega that fit together, all numbers of planets and times, shapes of r, exposure times, oversampling factors and orders, all masks; light_delay=False; no overflow or underflow", "why_tests_cant": "a bound on the error holds for all parameters and all combinations of rounding errors; near the contacts and the quadratures the rounding decides whether the planet is in front of the star at all, at times tests do not hit", "anchors": ["src/exoplanet/light_curves/limb_dark.py:LimbDarkLightCurve.get_light_curve", "src/exoplanet/light_curves/limb_dark.py:LimbDarkLightCurve._compute_light_curve", "src/exoplanet/orbits/keplerian.py:KeplerianOrbit.__init__", "src/exoplanet/orbits/keplerian.py:KeplerianOrbit.get_relative_position", "src/exoplanet/orbits/keplerian.py:KeplerianOrbit._rotate_vector", "src/exoplanet/orbits/keplerian.py:KeplerianOrbit._get_true_anomaly"]}
{"id": "C120", "title": "Rounding errors in the radius ratio from the transit depth", "statement": "Let every arithmetic operation return its exact result with a relative error of at most u (2^-53 for double precision). Then get_ror_from_approx_transit_depth() for a depth delta > 0, an impact parameter |b| < 1 and a physical limb darkening law returns arrays of the shape of b; each element is a positive number, and its logarithm differs from that of the exact radius ratio - the one whose approximate depth is delta - by at most 100 u / (mu I), where mu = sqrt(1 - b^2) and I is the brightness of the star at b relative to its centre. With jac=True the derivative ror / (2 delta) is returned as well, with three times that error. This holds where the precision suffices: 4 u <= mu^2 and 160 u <= mu I. Deviation: for impact parameters closer to 1 no such bound holds; with general rounding the result may be NaN although |b| < 1.", "quantifier": "all error bounds u <= 1/100, all ways of rounding within that bound, all physical quadratic limb darkening laws, all shapes of b with delta of that shape or a number, all depths and impact parameters off the limb as stated; no overflow or underflow", "why_tests_cant": "a bound on the error holds for all parameters and all combinations of rounding errors; the error grows without limit towards the limb and no finite set of impact parameters shows how", "anchors": ["src/exoplanet/light_curves/limb_dark.py:LimbDarkLightCurve.get_ror_from_approx_transit_depth"]}
{"id": "C121", "title": "Rounding errors in the semi-major axis from the transit duration", "statement": "Let every arithmetic operation return its exact result with a relative error of at most u (2^-53 for double precision). Then get_aor_from_transit_duration() for 0 < duration <= period / 2, ror >= 0 (0 if not given) and |b| < 1 + ror returns arrays of the shape of the duration; each element is a positive number, and its logarithm differs from that of the exact semi-major axis in units of the stellar radius - that of the circular orbit on which the planet touches the disk of the star at the angle pi duration / period from mid-transit - by at most 41 u g, where g = (1 + ror)^2 / ((1 + ror)^2 - b^2) is large for grazing transits. The second array is the derivative with respect to the duration (negative, for duration < period / 2) with an error of at most 100 u g times the derivative divided by the cosine of that angle. This holds where the precision suffices: u g <= 1/1000. Deviation: for impact parameters closer to 1 + ror no such bound holds; with general rounding the result may be NaN although |b| < 1 + ror.", "quantifier": "all error bounds u <= 1/100, all ways of rounding within that bound, all shapes of the duration with the other arguments of that shape or numbers, all durations, periods, impact parameters and radius ratios as stated; no overflow or underflow", "why_tests_cant": "a bound on the error holds for all parameters and all combinations of rounding errors; the error grows without limit towards grazing transits and no finite set of parameters shows how", "anchors": ["src/exoplanet/orbits/keplerian.py:get_aor_from_transit_duration"]}
