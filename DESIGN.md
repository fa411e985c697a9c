# Formal model of exoplanet: design

The code is read as text from /repo (nothing is run). The model is a set of
Coq 8.16 files in `rocq/theories`, logical name `Verif`.

## Layers

1. **Numeric layer** (`Num.v`). Every numeric function of the library is
   written once, over a record of operations `Num T B` (arithmetic, `sqrt`,
   `sin`, `arctan2`, `mod`, comparisons, `switch`, `zeros_like`,
   `shape_padright`, `squeeze`, Kepler solver, ...), and instantiated three
   times (`Inst.v`, `M_tensor.v`):
   * `R`: exact real arithmetic. The analytic theorems are stated here, with
     explicit guards that exclude division by zero and out-of-domain calls.
   * `fl` = finite real | +-infinity | NaN: IEEE special-value propagation with
     exact (unrounded) finite arithmetic and unsigned zero. NaN/Inf findings
     and all comparison-driven code (`in_transit`) are stated here.
   * `tens`: n-dimensional arrays (shape + index function) with numpy
     broadcasting; a shape error is a value. Shapes are lists with the last
     axis first. Array shape and multi-planet theorems are stated here.

   Bridging lemmas: an array result at an index is the `fl` result on the
   entries; an `fl` result on finite inputs in the guarded domain is the `R`
   result.
2. **External operations** (`CoreOps.v`, `CoreFlux.v`, `CoreDist.v`,
   `CoreLin.v`), see *Contracts of external code*.
3. **Model** (`M_*.v`), one file per source module or per group of functions,
   each definition citing its source lines; exceptions are values of `res`
   (`Ok` | `Err exn`), joined by `x <- e ;; f`.
4. **Specifications** (`Spec_*.v`), small and independent of the model.
5. **Proofs** (`L_*.v`) and **property theorems** (`P_*.v`: statements, `exact`,
   `Print Assumptions`, and examples showing that the hypotheses are met;
   example data in `Ex_*.v`).

Where the code does not do what its documentation or name suggests, the
property states what it does, and a theorem with suffix `_refuted` proves that
the natural statement is false.

## Per property

| id | modelled as | proof |
|----|-------------|-------|
| C01 | `consistent_inputs` / `kep_init` (`M_kepler.v`) over optional, unit-tagged arguments | exhaustive case analysis against an independent table of accepted and rejected argument sets (`Spec_params.v`, `C01_complete` covers every combination, including the order of errors) |
| C02, C03 | the same function at `R` | field and `Rpower` identities per branch; round trip by feeding attributes back to the constructor |
| C04 | quantities = number + optional (dimension, scale) | branchwise equality with pre-converted numbers, `UnitErr` on wrong dimensions; refutation for `duration` of circular orbits |
| C05, C06 | constructor, Kepler operation | `M0` in closed form by half-angle identities; refutation at `sin omega = -1` |
| C07-C10 | constructor | trigonometric identities, Coquelicot `is_derive` for the Jacobians; deviations for `ror` and massive planets |
| C11, C12, C16-C19, C22 | position and velocity methods at `R` | algebra; polar coordinates by `atan2` lemmas |
| C13, C21 | Kepler operation: the unique root of E - e sin E = M | intermediate value theorem, monotonicity, half-angle identities |
| C14, C15 | same | derivative of the inverse function E(M); `C15_machine_numbers` moves the result to `fl` |
| C20 | `_get_retarded_position` | roots of the quadratic; NaN for massless systems with zero acceleration (refutation) |
| C23 | `_flip` | algebra on the new orbit, all public methods |
| C24-C27 | `in_transit` at `fl` and `tens` | floor/mod lemmas, monotonicity of `asin`, contract of the contact point solver for eccentric orbits |
| C28, C29 | `SimpleTransitOrbit` (`M_simple.v`) | floor/mod lemmas |
| C30-C37 | `M_ttv.v`: regression, labels, bins, binary search, warping, argument handling | normal equations, induction on sorted lists and on the binary search |
| C38, C39, C43 | `M_limbdark.v`, flux integral in polar coordinates | Riemann integrals (Coquelicot): bounds, monotonicity, closed form of the unobscured integrals |
| C40, C44, C45 | `get_light_curve` on arrays, for any orbit object and for the three orbit classes | array lemmas (reshape, gather, scatter), C24-C29 for the mask |
| C41, C42 | stencils for all odd sizes and the three orders | finite sums, exactness on polynomials, uniform continuity for the limit |
| C46 | `M_secondary.v` | C23, C44, algebra; refutation for several planets |
| C47 | `M_interpolated.v` | Lagrange cubic, periodicity, error bound by the steepest slope; refutations for one-element vectors and shared planets |
| C48-C51 | `M_grid.v` | induction on the number of dimensions over the 2^d corners |
| C52-C56 | `M_dist.v`: value = function of latent variables, statements recorded | real analysis (bijections, Jacobians), dictionary lemmas |
| C57, C58 | `M_ecc.v` | case analysis of arguments; density formulas of PyMC (`CoreDist.v`) |
| C59-C61 | `M_rv.v` | linear algebra: Gaussian elimination solves every regular system, normal equations |
| C62 | `M_peaks.v` | sorting contract, vertex of the interpolating parabola |
| C63, C64 | `M_acf.v` | loop with fuel and termination theorem; DFT orthogonality |
| C65 | `M_acorr.v` | scan of local maxima |
| C66, C67 | `M_bls.v`, `M_lomb.v` | keyword dictionaries, loop with termination theorem |
| C68 | `M_heap.v`: heap of tensors with a write-once attribute | invariant over all call histories |
| C69, C70 | `M_cite.v`, `M_citedata.v` (the table is generated from citations.py) | induction over histories of entering, leaving and using models; decidable check of the whole table |
| C71 | `M_compat.v`: import outcomes as a function of the imported name | case analysis |
| C72 | `M_durecc.v`, `M_durvars.v` | algebra, derivative of the duration; arity error of the call; induction over the submodels and their variables |
| C73 | tensor instance | bridging lemmas, for every planet index |
| C74 | `M_kwargs.v`: keyword dictionary | lookups |
| C75 | `ttv_api` | C24, C26, C32, C44 composed along the shifted time axis |
| C76 | `M_posvel.v`: the private combined state | shapes of any system; positions and velocities are linear in the scale; sums of the first axis |
| C77 | `M_compose.v`: `light_curve_of`, every light curve class with every orbit class, nested to any depth | `interpolating` holds for TTVOrbit, SimpleTransitOrbit and secondary eclipses; uniqueness of the four-point cubic; errors by computation |
| C78 | `M_kepler.v`, `M_tensor.v`, `M_limbdark.v` on machine numbers; systems in which any planet may have an impossible impact parameter | the constructor depends on b only through four attributes; NaN z is interchangeable with z = 0 for light curves (`unnan_light`); masks entry by entry |
| C79 | `M_kepler.v` (`retarded_position`), `M_limbdark.v`, `M_secondary.v` with light_delay | Kepler motion bounds speed and acceleration, so the quadratic has real roots at all times; rationalised root gives sign and size; orbits pass each point once per period |
| C80 | `M_kepler.v` with and without Omega | the constructor commutes with `set_Omega`; `rotate_vector` composed with a rotation of the sky; light curves compared through the general `light_same` (`L_sym.v`) |
| C81 | `M_kepler.v` with `mirror`ed arguments | the constructor commutes with `mirror`; reflection at the line of nodes; masks entry by entry (`pair_light`, `pair_secondary` in `L_sym2.v`) |
| C82 | `M_kepler.v` with all times `later` | the constructor commutes with the shift; warped times agree; masks entry by entry |
| C83 | `M_kepler.v` with `scaled` arguments, incl. `consistent_inputs` | each branch of `consistent_inputs` is homogeneous; the constructor commutes with scaling; flux depends on ratios |
| C84 | `M_warn.v`: filters, registry, every `warn` of the library | case analysis; induction over the calls of a session |
| C85 | `M_kepler.v` with arguments run `backwards` | the constructor commutes with the reversal; Kepler's equation is odd; symmetric quadrature rules; masks of circular orbits entry by entry; `_refuted` theorems for the one-point rule and light delay |
| C86 | `CoreFlux.v` (`visible_flux`), `M_limbdark.v` | the hidden flux is the integral of the hidden angle; its antiderivative for a uniform star in closed form (`L_area.v`, fundamental theorem on the open interval); monotone in the radius ring by ring; weights of the quadrature are positive |
| C87 | `CoreFlux.v`, `M_limbdark.v`, `M_kepler.v`, `M_simple.v` | hidden angles at two distances cross once and hide the same total area, so the nearer planet hides brighter rings; projected distance of a circular orbit grows with the phase; `_refuted` theorem for a limb-brightened star |
| C88 | `M_kepler.v`, `M_simple.v`, `M_limbdark.v`, `M_secondary.v` | positions and masks at times a whole number of periods apart are equal (`Rmodulo_add_mult`, C17), then the comparison lemmas of C80 to C83 |
| C89 | `M_kepler.v` (`get_radial_velocity`) | the value is the derivative of a combination of the in-plane coordinates, which are periodic; fundamental theorem of calculus; every true anomaly is taken because Kepler's equation is solvable; Kepler's third law for the mass function |
| C90 | `CoreFlux.v`, `M_limbdark.v`, `M_kepler.v`, `M_simple.v` | a disk moved by d lies in the concentric disk larger by d, so the hidden areas differ by at most that of a ring; vis viva bounds the speed, the mean value theorem the displacement; the plane of the sky is crossed outside the star (intermediate value theorem); means over exposures by linearity |
| C91 | `M_secondary.v`, `M_kepler.v` | covered disk in the flux of the exchanged orbit, means over nodes; eccentric anomalies of the two conjunctions |
| C92 | `M_limbdark.v`, `M_interpolated.v`, `M_compose.v`, `M_kepler.v`, `M_simple.v` | Lipschitz bound of C90 through the quadrature error of C42 and the interpolation error of C47 |
| C93 | `M_rv.v`, `M_acf.v`, `M_acorr.v`, `M_bls.v` | the estimates are the unique minimiser of chi squared (parallelogram identity), and chi squared scales; the autocovariance scales; the rest is equivariant step by step |
| C94 | `M_grid.v` | induction over the axes: the error of linear interpolation along one axis, the others as convex combinations |
| C95 | `M_kepler.v`, `M_simple.v`, `M_limbdark.v` | the sine between its chord and its tangent; monotone and Lipschitz hidden flux (C87, C90) |
| C96 | `M_ecc.v`, `CoreDist.v` | the Gaussian integral, by differentiating under the integral sign; the Rayleigh distribution function in closed form; an explicit tail bound |
| C97 | `M_limbdark.v` | every rule is a sum over equal panels; regrouping the double sum |
| C98 | M_call.v: the three signatures, Python's binding of positional arguments (bind_positional), kep_construct, simple_construct and ttv_construct, on top of kep_call (M_kwargs.v), simple_init (M_simple.v) and the branches of ttv_init (M_ttv.v). | bind_positional succeeds exactly when every argument has a name and no name is repeated, and then returns the named arguments in front of the keywords (induction over the signature); the rest is rewriting, with C74 for the parameters of KeplerianOrbit. For transit_times: the keywords passed on always contain the period, so the first positional argument is bound twice. |
| C99 | kep_init, get_*_position, get_*_velocity, get_*_acceleration, get_radial_velocity (M_kepler.v) and get_light_curve (M_limbdark.v); args_tend, attributes_tend, vec_tends, tables_tend (Spec_cont.v) state convergence with the standard library's Un_cv. | Limits are carried through every branch of the constructor (L_cont.v, L_cont2.v; the branch taken does not depend on the values). The eccentric anomaly is continuous in both arguments because Kepler's equation contracts (L_cont3.v). The flux is continuous in the impact parameter and the radius by the bound of C90 and linear in the coefficients over the flux of the disk; behind the star it is zero, and near the change of side the planet is off the disk (L_cont4.v). |
| C100 | kep_init, get_relative_position (M_kepler.v), get_light_curve (M_limbdark.v); slant, front_share and along (Spec_front.v) give the closed form of the share and the coordinate along the nodes. | In terms of the eccentric anomaly E the line of sight is a positive multiple of cos(E - p) - d for a fixed angle p, so its sign is that of an interval of E, and Kepler's equation is increasing in E (L_front.v). A point of the ellipse is determined by its direction from the focus, which gives the uniqueness of the conjunction; exposures between passages only average zeros. |
| C101 | The same functions of M_kepler.v at the instance `rounded rd` (Spec_float.v), in which every operation, literals and the Kepler operator included, passes its result through an arbitrary function `rd` with the relative error u (`accurate`); neither overflow nor underflow, comparisons exact. | Relative errors are logarithms, which add up along products, quotients, roots and sums of positive terms (`ap`, L_float.v), branch by branch through the constructor (L_float2.v, L_float3.v); absolute errors of angles carry over to sines and cosines, and to the true anomaly by the derivative of Kepler's equation (L_float4.v, L_float5.v); together in L_float6.v. Flocq's relative error bound shows that double precision is an instance (Ex_float.v). |
| C102 | the IEEE special values of Inst.v (`fl`), arrays of them (M_tensor.v, M_limbdark.v), the orbits of M_kepler.v, M_simple.v and M_ttv.v | NaN spreads through the trigonometry and Kepler's equation; every comparison with NaN is false, so the line-of-sight test and the masks drop the entry; the whole of get_light_curve is followed entry by entry for arbitrary (not only finite) times (L_undef.v, L_undef2.v, L_undef3.v) |
| C103 | kep_init, get_radial_velocity, get_relative_position, get_relative_velocity, get_relative_angles of M_kepler.v, over the reals | the extremes of the curve give K and e cos omega, its derivative gives the rate at which the angle from the node advances, whose values at four angles give e sin omega and e, and its period follows (L_ident.v); on the sky, the acceleration is the position times a factor depending on the distance only, so that factor agrees at all times; its extremes give n and e, the phase and the Gram matrix of the projected axes follow (L_ident2.v); the twin is followed through the constructor (L_ident3.v) |
| C104 | unit_disk, quad_limb_dark, impact_parameter of M_dist.v; the value and potential as functions of the latent variables | change of variables in the integral, linear in the inner variable, a = s^2 in the outer one; continuity of integrals with a parameter; area of the disk by the substitution sin (L_prior.v) |
| C105 | angle of M_dist.v; value and potential as functions of the two latent variables | the weight of the sector up to slope t and height y is differentiated in y under the integral and equals an arc tangent integral; uniform bounds for the tails; half lines and half planes are put together for each quadrant (L_wedge.v to L_wedge5.v) |
| C106 | get_light_curve of M_limbdark.v over the KeplerianOrbit of M_kepler.v and M_tensor.v | the set of times with less light is a lattice of intervals, which fixes period, transit times and duration; the depth of a full transit of a uniform star gives the radius ratio; just before the last contact the light is a strictly increasing function of the distance, and the squared distance is linear in sin^2, which gives b^2 and (a/r_star)^2 (L_curve.v to L_curve5.v, L_lens.v, L_pass.v to L_pass4.v) |
| C107 | ttv_init, ttv_finish and ttv_warp of M_ttv.v over the arrays of M_tensor.v | each step of the constructor succeeds or fails planet by planet; the first failure decides (L_ttvlist.v); one list is a column that broadcasts against the planets, several lists do not (L_ttvlist2.v, L_ttvlist3.v) |
| C108 | get_light_curve of M_limbdark.v over the SimpleTransitOrbit of M_simple.v and the KeplerianOrbit of M_kepler.v | a common description of both kinds of transit (L_pass.v): the times with less light are a lattice of intervals; just before the last contact the light is a strictly increasing function of the distance (L_lens.v), so equal light curves with equal radius ratio mean equal distances there; a squared distance that is linear in d^2 gives speed and impact parameter; one linear in sin^2 is never linear in d^2 (L_pass2.v to L_pass4.v) |
| C109 | all three orbits (M_kepler.v, M_ttv.v, M_simple.v) and get_light_curve (M_limbdark.v) over tensors of any length | every entry of a result is a fixed function of the planet and of the value of its time (L_ptransit.v, L_undef.v); in_transit is the filter of the indices by a fixed function of the time, and filters of joined lists are joined (L_split.v) |
| C110 | regular_grid_interp of M_grid.v: searchsorted, clip, gather of all corners, product of weights | on one axis the interpolant is piecewise affine; intervals of the new grid lie in intervals of the old one (L_regrid.v); induction over the axes, linearity of the blend; for permutations uniqueness of the multilinear function through the corners of a cell (L_regrid2.v) |
| C111 | TTVOrbit of M_ttv.v (bins, searchsorted, warped times) under the orbit methods of M_kepler.v on arrays; get_light_curve of M_limbdark.v | around each time at most one change of the nearest transit (L_ttvmove.v); shifts of the derivative of C14, the same place recurs after whole periods only (L_ttvmove2.v); induction over the transits between two times for the Lipschitz bound (L_ttvmove3.v) |
| C112 | arrays with shapes (Inst.v), orbits of M_kepler.v, M_simple.v and M_ttv.v on arrays, `in_transit` of M_tensor.v (the number of axes of the mask is checked when the expression is built), get_light_curve of M_limbdark.v | induction on the shape: row-major positions and multi-indices are inverse to each other, squeezing keeps the order (L_ravel.v); shapes of all intermediate arrays by the broadcasting rules for an arbitrary shape of times (L_shapeS.v, L_ravel.v); exposure grids of shape times x nodes x planets (L_ravel2.v) |
| C113 | the generic functions of M_simple.v in the arithmetic `rounded rd` (Spec_float.v) and, for NaN, `rounded_fl rd` (Spec_float2.v), where every result and every literal is rounded by an arbitrary function rd within the relative error u; no overflow or underflow; one planet and one time (the array code applies the same operations elementwise) | forward error analysis: absolute errors for the reference time, the modulo and the phase (L_float7.v), relative errors for speeds and windows with the cancellation in (1 + ror)^2 - b^2 bounded by g (L_float8.v), positivity of the radicand, by monotonicity of rounding to nearest (Flocq) for double precision (L_float9.v) |
| C114 | simple_init and simple_relative_position (M_simple.v), get_light_curve (M_limbdark.v) on arrays; limits in Spec_cont2.v | the distance to the nearest mid-transit is a minimum over transit numbers and depends continuously on period, t0 and t (dist_cv), the signed time only away from the half-way points; the flux is continuous in distance and radius (C99) and 0 on both sides of a contact if the planet fits; the mean over the nodes of an exposure is a finite sum (L_cont6.v) |
| C115 | ttv_init, its least-squares fit and the bins and warp of times (M_ttv.v), kep_init and the positions (M_kepler.v), get_light_curve (M_limbdark.v) on arrays; limits in Spec_cont.v and Spec_cont2.v | slope and intercept are rational functions of the transit times with a denominator that only depends on the labels (fit_tends); the nearest transit approaches the nearest transit of the limit or, half way, one of two candidates (nearest_cv), which yield the same motion if they are whole periods apart and the same flux if the orbit meets itself; the rest is C99 for the underlying orbits (L_cont7.v) |
| C116 | regular_grid_interp (M_grid.v) with the arithmetic of arrays as a parameter: the exact one, and the one with every result rounded (rounded_tens in Spec_float3.v) | the array code computes, for every point, a sum over the corners in the order of itertools.product (rgrid_core, L_float10.v); one induction over the axes bounds the error of the running sum and of the weights together (run_error, L_float11.v); at a grid point all distances are exactly 0 or 1 (pick_grid) and so are all weights (run_pick, L_float12.v) |
| C117 | the four functions (M_dist.v) with the arithmetic of arrays as a parameter: the exact one, and the one with every result rounded (rounded_tens in Spec_float3.v) | relative errors are multiplied as factors exp(d) with |d| bounded (L_float.v); for 1 - x^2 and 1 - 2 q2 the absolute error is bounded (L_float13.v); the array code is reduced to those formulas element by element (L_float14.v); the deviations are computed with Flocq's rounding to nearest (Ex_float4.v) |
| C118 | the light curves (M_limbdark.v) and SimpleTransitOrbit (M_simple.v) with the arithmetic of numbers and arrays and the solution vector as parameters: the exact ones, and the ones with every result rounded (Spec_float5.v) | the coefficients and the dot product with the solution vector by a calculus of relative errors (L_float16.v); the distance and the radius by the Lipschitz bound of the flux (L_float17.v); the array code is reduced to those formulas element by element (L_float15.v), sums of products by induction over the nodes (L_float17.v, L_float18.v); for SimpleTransitOrbit with the bounds of C113, and with the flux close to zero near the contacts (L_float20.v); with the mask because what it leaves out is within the error of the contacts (L_float23.v, L_float24.v) |
| C119 | the light curves (M_limbdark.v) of the positions that KeplerianOrbit (M_kepler.v) computes, both with every result rounded (Spec_float5.v, Spec_float6.v); in_transit() is arbitrary | the array code is reduced to one planet and one time (L_float25.v), the constructor likewise (L_float30.v to L_float33.v); the attributes of the rounded constructor are shown to describe angles up to rounding (L_float26.v), so that the distance of the planet is at least 4/5 of a(1-e); where the planet passes the plane of the sky it is therefore off the disk, and the flux cannot jump (L_float27.v); exposures by the Lipschitz bound of the exact motion in time (L_float28.v), with the bounds of C101 and C118 |
| C120 | get_ror_from_approx_transit_depth (M_limbdark.v) on arrays with every result rounded (Spec_float7.v) | absolute errors up to the brightness at b, which the square root next to the limb divides by mu, relative errors from there (L_float34.v); the deviation on a machine whose products are 1% too large (Ex_float7.v) |
| C121 | get_aor (M_kepler.v) on arrays with every result rounded (Spec_float9.v) | relative errors of the angle, carried through the sine by concavity and through the cosine by its slope; absolute errors up to the difference under the root, relative errors from there (L_float36.v); the deviation on a machine whose products are 1% too large (Ex_float8.v) |

## Trusted base

* Coq's kernel (8.16.1). No plugin, no axiom of our own, no `Admitted`, no
  switched-off check, no functor or module type of our own.
* The axioms printed by `Print Assumptions` below each theorem, all from the
  standard library (the construction of the real numbers and Coquelicot's use
  of classical logic):
  * `ClassicalDedekindReals.sig_forall_dec`, `ClassicalDedekindReals.sig_not_dec`, `Classical_Prop.classic`, `FunctionalExtensionality.functional_extensionality_dep`: all theorems not named below (468)
  * `ClassicalDedekindReals.sig_forall_dec`, `ClassicalDedekindReals.sig_not_dec`, `FunctionalExtensionality.functional_extensionality_dep`: `C01_accept`, `C01_complete`, `C04_bad_unit`, `C07_errors`, `C108_whole_duration`, `C59_defined`, `C59_least_squares`, `C59_least_squares_phase`, `C59_phase`, `C59_transit`, `C60_incompatible`, `C60_quantity_y_refuted`, `C60_units`, `C61_homogeneous`, `C61_linear`, `C64_autocorrelation`, `C64_constant`, `C64_shapes`, `C65_curve`, `C65_max_peaks`, `C65_missed_refuted`, `C65_selection`, `C65_single`, `C67_response`, `C72_range`, `C72_roots`, `C72_valid`, `C74_a_overridden`, `C74_keywords`, `C74_unknown_keywords`, `C80_errors`, `C84_flip`, `C84_orbit`, `C84_rejected`, `C93_autocorrelation`, `C93_estimator`, `C93_phase`, `C93_reversed`, `C93_transit`, `C98_kepler`, `C98_kepler_gives`
  * no axioms (closed under the global context): `C23_ttv_refuted`, `C35_zip_refuted`, `C37_flip_refuted`, `C37_neither`, `C45_message`, `C47_uncounted`, `C63_smallest`, `C63_terminates`, `C65_no_scipy`, `C68_with_unit`, `C69_context`, `C69_never_raises`, `C69_no_context`, `C69_report`, `C70_bibtex`, `C70_external_refuted`, `C70_table`, `C71_error`, `C71_one_family`, `C71_select`, `C71_versions`, `C72_raises`, `C97_even_refuted`
  * `ClassicalDedekindReals.sig_forall_dec`, `FunctionalExtensionality.functional_extensionality_dep`: `C28_light_delay_refuted`, `C35_expected`, `C35_inclusive_refuted`, `C41_errors`, `C41_one_node_refuted`, `C41_orders`, `C41_quadrature`, `C54_physical`, `C68_again`, `C68_once`, `C68_preserved`, `C68_round_trip`, `C68_table_refuted`, `C68_to_unit`, `C84_constants`, `C87_darkening`, `C98_simple`, `C98_simple_refuses`, `C98_simple_units`
  * `ClassicalDedekindReals.sig_forall_dec`: `C109_joined_light_curve`, `C68_legacy_refuted`, `C72_branches`
* That the model matches the code as read, under the simplifications below.
* The contracts of external code below.

## What is modelled, and how it is simplified

General simplifications, valid everywhere but in C101, C113, C116, C117, C118, C119, C120 and C121: real arithmetic instead
of rounding (`fl` adds infinities and NaN but does not round; C101, C113, C116, C117, C118, C119, C120 and C121 bound what
rounding does to orbits, grid interpolation, distributions and light curves, and which arguments an orbit accepts, C01, is proved for
every arithmetic); no signed zero; no integer
overflow; PyTensor builds graphs and fails when they are evaluated, the model
reports the error where the expression is built; warnings (deprecation and log
messages) are not observable in the model, except in `M_warn.v`.

| source | modelled | not modelled, simplified |
|--------|----------|--------------------------|
| `orbits/keplerian.py` 1-72, 75-283 | constructor, all branches and exceptions (`M_kepler.v`, `M_kwargs.v`, `M_call.v`) | `m_planet_units=None` and similar odd values |
| 285-334, 380-706 | rotation, time warping, true anomaly, position, velocity, acceleration, light delay, parallax, RV (`M_kepler.v`) | - |
| 336-378 | `M_posvel.v` | array-valued parallax |
| 708-777 | `in_transit` (`M_kepler.v`, `M_tensor.v`) | `t` must be an array object (a python list has no `.shape`) |
| 779-847 | `_flip`, `get_true_anomaly` | - |
| 849-934 | `_get_consistent_inputs` | - |
| `orbits/constants.py` | constants as positive reals (`consts` in `M_units.v`) with the relations between them as hypotheses where needed, and the literals of the fallback branch (`fallback_consts`) | the numeric values of astropy; `day_per_yr_over_2pi` (unused) |
| `orbits/simple.py` | everything (`M_simple.v`, positional arguments in `M_call.v`) | astropy quantities and python lists as arguments (the code needs array arithmetic) |
| `orbits/ttv.py` | everything (`M_ttv.v`, positional arguments in `M_call.v`) | `t0[i]` of arrays with several axes is an error |
| `orbits/dur_to_ecc.py` | 25-101 (`M_durecc.v`), 102-110 (`M_durvars.v`) | the user's function and the variables it declares are arguments; a clash with a variable already declared in the enclosing model |
| `light_curves/limb_dark.py` | everything (`M_limbdark.v`) | limb darkening coefficients are scalars (as documented) |
| `light_curves/secondary_eclipse.py` | everything (`M_secondary.v` for `KeplerianOrbit`, `M_compose.v` for the other orbits) | - |
| `light_curves/interpolated.py` | everything (`M_interpolated.v`: the base is any function of the times; `M_compose.v`: the base is any light curve) | - |
| `interp.py` | everything (`M_grid.v`) | grid points are vectors, `fill_value` is a number |
| `distributions/distributions.py` | everything (`M_dist.v`) | PyMC calls are recorded, not executed; `initval` is an array or number |
| `distributions/__init__.py` | the wrappers `ImpactParameter`, `QuadLimbDark` (`M_warn.v`) | re-exports |
| `distributions/eccentricity.py` | everything (`M_ecc.v`) | `observed` is a number, array or variable |
| `estimators.py` | everything (`M_rv.v`, `M_peaks.v`, `M_acf.v`, `M_acorr.v`, `M_bls.v`, `M_lomb.v`) | import fallbacks; `oversample=0` in `autocorr_estimator`; NaN in the times |
| `units.py` | twice: values (`M_units.v`) and objects with identity (`M_heap.v`) | - |
| `citations.py` | everything (`M_cite.v`, `M_citedata.v`) | `textwrap.wrap` is an argument |
| `compat.py` | everything (`M_compat.v`) | - |
| `utils.py` | `as_tensor_variable` (`M_heap.v`), `deprecation_warning`, `deprecated` (`M_warn.v`) | `docs_setup` |
| `__init__.py` files | - | re-exports |

## Contracts of external code

| operation | modelled by |
|-----------|-------------|
| `ops.kepler` | sine and cosine of the true anomaly of the unique root of Kepler's equation, 0 <= e < 1; NaN otherwise (`CoreOps.v`) |
| `ops.contact_points` | argument `cp`; theorems assume: with flag 0 the two mean anomalies enclose the transit, with another flag nothing |
| `ops.quad_solution_vector` | surface integrals over the visible part of the disk (`CoreFlux.v`); in C118 any function within eps of them (`solves` in `Spec_float5.v`) |
| numpy/PyTensor elementwise operations, broadcasting, reshape, gather, scatter, `searchsorted`, `arange`, `linspace` | defined (`M_tensor.v`, `M_limbdark.v`, `M_ttv.v`, ...) |
| `np.linalg.solve` | Gaussian elimination, proved to solve (`CoreLin.v`, `L_lin*.v`) |
| `np.argsort` | argument; assumed to sort (not assumed stable) |
| `np.fft` | the discrete Fourier sums |
| `scipy.ndimage.gaussian_filter` | argument, no assumption except where stated |
| `BoxLeastSquares`, `LombScargle` | arguments (functions from data and keywords to results or errors) |
| astropy units | dimension vector and scale factor; conversion of equal dimensions multiplies by the ratio of scales, otherwise `UnitErr` |
| PyMC | recorded statements; log densities by their documented formulas (`CoreDist.v`); `modelcontext` as a stack |
| Theano's table of constants | argument `backend` (`M_heap.v`) |

## Seeded bugs

`seeded/LOG.jsonl` records edits of the model in a scratch copy (the definition,
the edit, the claim it breaks, the theorems that failed to build, the theorems
tightened because of it).
