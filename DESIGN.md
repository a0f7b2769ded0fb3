# Formal model of soniakeys/meeus (v3) in Rocq

## 1. Approach

The code base is a library of pure numerical and calendrical functions (plus one
file parser and a few functions that write through pointers).  It is modelled
function by function in `rocq/theories/M_*.v`; each definition cites the Go
file and lines it models.  Specifications that do not mention the model are in
`S_*.v`; proofs are in `L_*.v` (lemmas); the property theorems are in `P_*.v`,
which contain nothing but `Theorem ... exact lemma.`, non-vacuity `Example`s and
`Print Assumptions`.

### Semantics of Go arithmetic

* `int`, `int64`: `Z` with an explicit 64-bit two's-complement wrap (`wrap64`)
  after every `+ - *`; `/` and `%` are the truncating `Z.quot`/`Z.rem`
  (`GoInt.v`).  `int` is taken to be 64 bits wide (amd64/arm64).
  A run-time panic is the value `None`, or a `Panic` constructor of the result.
  In a quotient of two untyped integer constants, Go's integer division is kept
  (`intConst`): this is where C57 comes from.
* `float64`: three semantics of the same text, instances of the class `Flt`
  (`GoFloat.v`).
  - `RFlt`, *exact*: the arithmetic of the real numbers `R`.  This is the
    semantics in which "the parabola through three points" or "solves Kepler's
    equation" is meant.
  - `XFlt`, *exact with infinities and NaN*: `xreal` = a real number, plus or
    minus infinity, or NaN; division by zero, comparison with NaN and
    conversion to int behave as in IEEE-754, without rounding and without a
    negative zero.  Used where code reaches a division by zero or compares with NaN.
  - `BFlt`, *binary64*: IEEE-754 double precision, round to nearest even, with
    infinities, NaN and signed zeros, from Flocq (`BinarySingleNaN`).  Used
    where a property is about rounding.
  Packages `base`, `iterate`, `interp`, `fit`, `julian`, `jm`, `deltat` and
  `conjunction` are written once over the class, so that exact and bit-level
  theorems are about the same text.
* The other packages, which call trigonometric functions, are modelled over
  plain `R` with the functions of `GoMath.v` (`atan2` by quadrant, `hypot`,
  `Floor`, `Modf`, `PMod`, `Mod1`, ...).  Theorems about them say nothing about
  rounding errors.
* Operations that are undefined on reals (division by zero, square root or
  logarithm of a negative number, `asin`/`acos` outside [-1,1]) are total in
  Coq; every theorem that touches them carries the guard as a hypothesis or
  proves it.  Where the code reaches such a point, `XFlt`, binary64 or an
  option-valued model is used and the behaviour is stated.
* `math.Atan2` over reals differs from Go only in the sign of zero on the
  negative x axis.
* Loops with a bound become structural recursion; loops without a bound become
  recursion on fuel with an explicit out-of-fuel value, and termination (or
  non-termination) is a theorem.
* Pointer arguments that may alias are modelled with an explicit memory
  (`M_precess.v`, type `memory`; names ending in `_ptr`): a function is a
  sequence of reads and writes of fields at locations that may be equal.
* External data (VSOP87 tables) and higher-order arguments are universally
  quantified.  A VSOP87 planet is whatever the loader of C52 can return.

### Trusted base

* Coq 8.16.1 kernel (including its `vm_compute` reduction machine).
* Axioms: only those of the standard library's real numbers and classical logic
  (`ClassicalDedekindReals.sig_forall_dec`, `ClassicalDedekindReals.sig_not_dec`,
  `FunctionalExtensionality.functional_extensionality_dep`,
  `Classical_Prop.classic`), as printed under each theorem by the
  `Print Assumptions` that follows it.  Integer theorems are closed under the
  global context.
* The reading of the Go source (nothing is executed).
* `github.com/soniakeys/unit` is not part of the repository; its functions are
  modelled from their documented behaviour: `PMod(x,y)` is `math.Mod` plus `y`
  if negative; `Angle.Mod1`, `RAFromRad`, `Time.Mod1` reduce into `[0,2pi)` and
  `[0,86400)`; `AngleFromDeg/Min/Sec`, `TimeFromRad`, ... are scalings.
* Go's `time`, `strconv`, `strings` and `math` packages, modelled from their
  documentation where the code uses them (`strconv.ParseFloat` is a parameter).
* Go compiler: no fused multiply-add (amd64), constants evaluated exactly.
* Tables of the source (VSOP87 file layout, series of nutation, Moon, Pluto,
  delta-T, seasons, planetary phenomena, ...) were transcribed from the source
  by script, and a script checked that every numeric literal of three or more
  digits in the cited lines occurs in the model; several theorems (C74, C77,
  C86, C89, C95, C96, C97) fail if a large coefficient is wrong.

### What is modelled

Every function of the following packages, file by file (comments in the
`M_*.v` files give the lines):

| model | packages |
|---|---|
| `M_base.v` | base (Horner, FloorDiv, epochs, Cmp) |
| `M_iterate.v`, `M_interp.v`, `M_fit.v` | iterate, interp, fit |
| `M_julian.v`, `M_jm.v`, `M_easter.v` | julian, jm, easter |
| `M_angle.v` | angle, circle, line |
| `M_kepler.v`, `M_orbit.v`, `M_length.v` | kepler; parabolic, nearparabolic, elliptic (except Position), node, binary |
| `M_coord.v` | coord, globe |
| `M_precess.v`, `M_apparent.v` | precess, elementequinox, apparent, parts of solar |
| `M_vsop.v`, `M_solar.v` | planetposition, nutation, solar, solarxyz, eqtime |
| `M_ephem.v` | elliptic.Position, rise.ApproxPlanet, rise.Planet |
| `M_rise.v` | sidereal, rise |
| `M_light.v` | base (phase), illum, moonillum, stellar, semidiameter |
| `M_semidiameter.v` | semidiameter (the constant of the Sun) |
| `M_parallax.v`, `M_parallactic.v`, `M_refraction.v` | parallax, parallactic, refraction; semidiameter of the Moon |
| `M_lunar.v`, `M_eclipse.v` | moonphase, apsis, moonnode, moonmaxdec, eclipse |
| `M_planetary.v`, `M_planetelements.v` | planetary, perihelion, planetelements |
| `M_moon.v`, `M_moonconst.v` | moonposition, moon |
| `M_physical.v` | mars, jupiter, saturnring |
| `M_jupitermoons.v`, `M_saturnmoons.v`, `M_pluto.v` | jupitermoons, saturnmoons, pluto |
| `M_season.v`, `M_solardisk.v`, `M_sundial.v` | solstice, solardisk, sundial |
| `M_conjunction.v`, `M_deltat.v` | conjunction, deltat |

### What is not modelled

* Packages `accuracy`, `hints` and `sort` (documentation only), tests and examples.
* Code inside comments: `elliptic.Length3`, `moon.Topocentric`,
  `moon.TopocentricCorrections`.
* `planetposition.LoadPlanet`: the lookup of the environment variable and of
  the file name (`LoadPlanetPath`, which it calls, takes the result of reading
  the file).
* The methods of `coord` that write the results of the modelled functions into
  their receiver (`eq.EclToEq(...)` and so on).
* Formatting methods, except those of `jm` whose panics are stated in C14.
* The rounding of `float64` in packages over plain `R` (see above).
* Running time, memory, concurrency (the library has no shared state except
  tables that are written once in `pluto.init`).

## 2. Properties: what is modelled and how it is proved

* **C01** Floor division is the mathematical floor. Model with wrap64 and option (panic). Proof by case analysis on signs and nonlinear arithmetic over Z; closed.
* **C02** Gregorian date to Julian Day counts days of the Gregorian calendar. Model over Flt (Z part wrapped). Spec: next-day relation and month lengths. Proof: floor arithmetic by lia; binary64 exactness through Flocq.
* **C03** Julian-calendar date to Julian Day counts days of the Julian calendar. As C02 with the Julian leap rule.
* **C04** JDToCalendar inverts the calendar-to-JD functions. Model over Flt. Proof of the round trip by floor arithmetic; the reform window is examined separately (suspected defect: constant 2299151 for 2299161) and refuted with a witness.
* **C05** Day-of-year numbering and its inverse. Finite sweep over the 731 (leap, day) pairs lifted to all years, plus next-day recurrence.
* **C06** DayOfWeek is the weekday of a Julian Day. Model over Flt with Go's truncating conversion; proof over R and Z; negative JD refuted.
* **C07** time.Time to Julian Day and back. time.Time modelled as (date, nanoseconds of day); time.Date normalisation modelled by day count; exact semantics.
* **C08** Gregorian Easter is the right Sunday. Integer model; Sunday and range by arithmetic decomposition of the century; epact spec by finite sweep over residue classes (period argument), no bound on y.
* **C09** Julian Easter is the right Sunday. As C08 with period 532.
* **C10** Gregorian/Julian calendar conversion denotes the same day. Integer/real model; equality of Julian Day numbers through the C02/C03 day-count specs.
* **C11** Moslem to Julian conversion follows the tabular Islamic calendar. Spec: tabular calendar day number. Proof by period reduction and lia.
* **C12** Julian to Moslem inverts Moslem to Julian. Suspected false (leap test uses the Julian year). Refuted with a witness; partial positive theorem on the dates not reaching that branch.
* **C13** Moslem leap years and year length. Direct arithmetic modulo 30 and via C11.
* **C14** Jewish calendar output is a legal Jewish year. binary64 model of bigD; spec: molad arithmetic with the four postponements; structural facts for all years, date equality on the range of the calendar by a complete sweep stated in the theorem.
* **C15** Horner evaluates the polynomial. Induction on the coefficient list; panic explicit.
* **C16** Epoch conversions are inverse and Cmp is a total order. Field arithmetic; Cmp over both semantics.
* **C17** BinaryRoot converges to a root in its bracket. Induction on the 52 bisection steps with the intermediate value theorem.
* **C18** DecimalPlaces and FullPrecision report convergence honestly. Induction on the iteration bound with an abstract refinement function and call history.
* **C19** Three-point interpolation is the unique parabola. Field identities; uniqueness of the parabola.
* **C20** Strict interpolation rejects exactly the out-of-table arguments. Case analysis; Len5 is suspected to restrict to the inner half (refuted).
* **C21** Len3.Extremum is the extremum of the interpolating parabola. Completing the square.
* **C22** Zero finding returns a zero of the interpolating curve whenever one is there. Residual bound from the stopping test (exact semantics), 0/0 behaviour in binary64.
* **C23** Five-point interpolation is the unique quartic. Field identities.
* **C24** Len5.Extremum is a stationary point of the interpolating quartic. Suspected false (coefficient h+k for h+j): refuted with a table; partial: value is consistent and correct when h+k=h+j.
* **C25** Len3ForInterpolateX picks rows inside the table around x. List model with explicit index errors; floor arithmetic.
* **C26** Len4Half is exact for cubics. Field identity.
* **C27** Lagrange interpolation is the interpolating polynomial. Induction on the table; uniqueness of the interpolating polynomial via root counting.
* **C28** LagrangePoly returns the coefficients of the Lagrange polynomial. Loop invariants on the coefficient array; induction on the table.
* **C29** Linear fit is the least-squares line. Sum-of-squares decomposition for arbitrary lists.
* **C30** Quadratic and three-function fits are least-squares optimal. Normal equations by Cramer's rule plus convexity.
* **C31** Correlation coefficient lies in [-1, 1]. Cauchy-Schwarz for lists.
* **C32** Angular separation functions agree with the spherical law of cosines. Spherical trigonometry over R; small-angle branch of Sep examined separately (suspected defects: no wrap, asymmetric).
* **C33** Relative position angle and collinearity formulas. Vector identities with the atan2 characterisation.
* **C34** Smallest circle contains the three points. Algebra on Heron's formula; permutations by cases.
* **C35** Kepler solvers return a solution of Kepler's equation. Stopping test plus Taylor/Lipschitz bounds of sin; quadratic convergence of Newton's method shows that the iteration limits suffice for moderate eccentricities. For large eccentricities: sin is concave on half a turn, so Newton's method passes the root at most once and then loses a third of the error or more at each step; the limited steps of Kepler2a and Kepler2b pass the root after finitely many steps. The intermediate value theorem gives a mean anomaly at which Kepler2a fails for every eccentricity from 0.9529 on.
* **C36** Kepler3 converges for every eccentricity and anomaly. Bisection invariant with monotonicity of E - e sin E.
* **C37** True anomaly and radius vector are consistent. Half-angle identities.
* **C38** Parabolic motion solves Barker's equation. Cubic identity (Cardano).
* **C39** Ecliptic/equatorial conversion is a rotation with exact inverse. atan2/asin characterisation; rotation matrices.
* **C40** Horizontal conversion round-trips and preserves the hour-angle relation. As C39.
* **C41** Galactic conversion round-trips. As C39.
* **C42** Earth ellipsoid quantities are consistent. Trigonometric identities; the 0/0 at coincident points stated in binary64.
* **C43** Precession is a rotation and the identity between equal epochs. Rotation matrices; explicit polynomial vanishing at t = 0.
* **C44** Same-struct arguments are safe. Store model with all aliasing patterns.
* **C45** Sidereal time functions are ranged, continuous over the day, and daily functions are constant over a day. Mod arithmetic over R; Apparent0UT examined separately (suspected defect).
* **C46** Approximate rise/transit/set times are in the day and satisfy the altitude equation. cos of acos, modular time arithmetic.
* **C47** rise.Times corrections stay within the documented range. Refutation by witness of the range; error cases by case analysis.
* **C48** Mean lunation/apsis/node snapping picks the nearest event. Floor arithmetic.
* **C49** Lunar eclipse classification is consistent. Inequalities on thresholds with bounds on u.
* **C50** Solar eclipse classification is consistent. Case analysis.
* **C51** Illuminated fraction agrees between formulas and lies in [0, 1]. Algebra.
* **C52** VSOP87 file parsing never hangs or crashes on malformed data. State machine over lines with fuel; non-termination by invariance, panics as values.
* **C53** Sundial lines satisfy the gnomon geometry and the special cases agree. Equality of the generated lists in exact semantics; NaN comparison with option-valued acos.
* **C54** Stellar magnitude arithmetic. exp/ln identities, induction on lists.
* **C55** Diurnal parallax formulas agree. Vector identities; Topocentric2 by a second-order bound on the displaced direction.
* **C56** Perihelion refinement never panics and stays in its bracket. Bracket inequality implies vertex inside.
* **C57** Constant expressions denote the documented constants. Go constant arithmetic modelled (integer quotient of integer constants); refuted.
* **C58** Orbital element equinox reduction is a rotation. Rotation matrices; retrograde case refuted.
* **C59** Near-parabolic solver terminates. Newton iteration on a monotone cubic: global convergence in exact arithmetic.
* **C60** Table interpolation of delta-T. List model of the table, index arithmetic.
* **C61** Binary star, ellipse and node computations are consistent. Half-angle identities, projections.
* **C62** Elliptic velocity and arc-length formulas. Real inequalities. The length of the ellipse is specified in S_ellipse as the increase over one turn of any antiderivative of the speed; the speed is |1 - m e^{2it}|(a+b)/2, whose square root series squared is a finite trigonometric sum up to 8 m^{n+1}, which gives the series summed by Length4; Length1 and Length2 are compared with it term by term.
* **C63** Angular results stay in their documented ranges. PMod range lemma applied to each function.
* **C64** Time-bracketed conjunction search. Composition of C22/C20 models; outer half refuted.
* **C65** Kepler4 is an approximation to third order. Half-angle identities and a Taylor bound of the residual.
* **C66** Elliptic ephemeris is the geometry of the orbit. Rotation matrices; the eccentric anomaly through C35/C36.
* **C67** Proper motion, nutation and aberration as vectors. First-order variation of a direction (east and north components) compared with the code's formulas; precession rotation of C43.
* **C68** Perihelion search terminates. Fuel model; a variant along a unimodal radius; loops by invariants for the refuted cases.
* **C69** Mean phases against true phases. Triangle inequality over the periodic terms with the snap lemma; documented half day refuted.
* **C70** Order of lunar events. Bounds of the corrections against the differences of the mean instants.
* **C71** Magnitudes: inverse square and monotone in the phase. log identities, derivative signs; two formulas refuted.
* **C72** Semidiameters are radius over distance. Vector identities; the lunar constant refuted.
* **C73** VSOP87 positions are the sums of the file's series. Parser of C52 composed with the evaluation, precession of C43.
* **C74** Nutation and obliquity. Amplitude sums of the 63 terms; polynomial differences. The 0.1 arc seconds of the approximate obliquity need more than amplitudes: the terms left over are split into those in the Moon's angles and those in the Sun's, each a trigonometric polynomial in three angles whose supremum is bounded from its values on a 64 by 64 grid (`L_torus.v`: a value at a point is the mean of the values at two symmetric points, one of them on the grid, up to the curvature; applied to the supremum this bounds it).
* **C75** Rectangular solar coordinates. Rotations; the omitted cosine of the latitude bounded.
* **C76** Low-precision Sun. Unfolding into spherical geometry, `same_angle` up to whole turns.
* **C77** Seasons fall on the right days. Polynomial bounds in exact rationals per range of years, day count of C02.
* **C78** High-accuracy season search. Contraction of the correction step; fuel model.
* **C79** Angles at the horizon. Spherical vectors; `xreal` for the division by the tangent of the latitude.
* **C80** Refraction. Derivative signs; the zenith refuted. The 4 arc second agreement of Bennett and Saemundsson by a chain of cells, using monotonicity and the addition formula of the cotangent on each cell.
* **C81** Mean orbital elements. Interval evaluation of polynomials; panic for Earth refuted.
* **C82** Solar disk. Frame of the inclined, rotating equator.
* **C83**, **C84**, **C85** Physical ephemerides of Mars, Jupiter and Saturn's ring. Frames (`plane_frame`, `equator_frame` in `S_physical.v`), first-order motion of the apparent place; missing wrap refuted for the ring.
* **C86**, **C87**, **C88** Position and physical ephemeris of the Moon. Amplitude bounds, agreement of arguments up to whole turns, selenographic frame; sunrise and sunset partial.
* **C89** Pluto. Amplitude bounds of the 43 terms, rotation by the rounded obliquity.
* **C90**, **C91**, **C92** Satellites of Saturn and Jupiter. Orbits in a plane frame, rotation to the sky, amplitude bounds, resonances as identities of rational coefficients.
* **C93**, **C94** Apparent place of a planet and its rising times. Composition of C43, C67, C73, C74 and C46, C47, C60; error of the corrected times from C122 (`L_rise3.v`).
* **C95**, **C96** Lunar and planetary events against the mean motions. Composition of polynomials with rational coefficients bounded by a reflexive checker (`L_meanmotion.v`).
* **C97**, **C98** Apparent places of stars. The 36 rows of the Ron–Vondrák table are data (`M_apparent.v`); rows 3 to 36 are bounded by their greatest lengths (a checker on integer Gram matrices, `L_apparent.v`), rows 1 and 2 compared with the elliptic orbit expanded to first order in the equation of centre (`L_apparent2.v`, `L_apparent3.v`), with rational bounds of pi, the obliquity and the perihelion.
* **C99** Precession there and back. The equatorial angles for the way back are exactly the negatives of those for the way there, in reverse order, so the rotations cancel; the ecliptic ones miss by a polynomial that is computed and bounded. The two forms are compared by Taylor models: every angle, its sine and cosine and every entry of the two products of rotations is a polynomial in T with integer coefficients in units of 2^-70 and an error bound (`L_taylor.v`, proved sound once for sums, products, sine and cosine); the difference of the two matrices is evaluated by `vm_compute` and its columns bound the difference for every direction (`L_precess2.v`).
* **C100** The seasons against the Sun. For each of the eight polynomials of solstice the longitude of solar at the mean instant is a Taylor model in the year (`L_season2.v`); the correction by the periodic terms is bounded together with the longitude's rate of change, so that the longitude at the corrected instant is within the stated tolerance of 0, 90, 180 or 270 degrees.
* **C101** Solar time. The nutation cancels; what is left is the difference of the sidereal polynomial (at 0h, with its rate through the day) and the mean longitude, a polynomial in T and the fraction of the day that is bounded on both ranges (`L_eqtime.v`).
* **C102** Smart's formula. The reduction to the equator is expanded to second order in tan^2(eps/2) with a bound for the rest, the equation of the centre is compared with its first two terms in e, and the remainders are added up (`L_eqtime.v`).
* **C103**–**C106** Rounding errors. The float64 models (Flocq binary64) of bisection, Horner's rule, interpolation in three rows and the epoch conversions, with the standard error model `x(1+d)+e` per operation (`L_round.v`) carried through each function (`L_horner64.v`, `L_bisect64.v`, `L_interp64.v`, `L_epoch64.v`). No fused multiply-add is assumed; on architectures where the Go compiler fuses, the results may differ. Strict interpolation is refuted for abscissae that are not binary fractions.
* **C107** Every float64 Julian Day of one binade, 2^21 to 2^22: the grid of spacing 2^-31 is shown exact through `Modf` and the integer arithmetic (`L_julian64.v`); times by rounding to that grid.
* **C108** `Length4` over any arithmetic with its stopping test (`M_length.v`). Invariant of the loop in float64: the k-th term at most 1/(4k^3), the sums at most 1.51, both within a multiple of k 2^-53 of the exact series; a term below 2^-53 no longer changes a sum in [1, 2) (`L_length64.v`). The series, its tail and its dependence on m are compared with the perimeter of C62; calls that never return carry a NaN (`L_length64b.v`).
* **C109** The two truncated series of globe against the geometry of the meridian ellipse (`S_globe.v`). phi - psi = atan(m sin 2phi / (1 + m cos 2phi)), with atan bounded by its first terms; the square of the radius is a rational function of cos 2phi, compared with the square of the series (`L_globe2.v`).
* **C110** `MinSepRect` with its loop over reals with infinities and NaN (`M_minsep.v`; it may divide by zero). The loop is a Gauss-Newton step for the squared distance of a parabolic path: a step divides the next one by 4 when the second differences are at most 1/20 of the motion, and the squared distance is convex there (`L_minsep.v`). The plane coordinates are rational in the sines and cosines of the differences; compared with the exact sine of the separation. False in general: `MinSep` returns a maximum when the separations are concave, `MinSepRect` a closest approach outside the table.
* **C111** The model of `ToFK5` (`M_solar.v`) against a rotation vector fixed in the axes of J2000 (`S_fk5.v`): the first-order motion is an identity between vectors; the second-order remainder comes from the tangents of sine and cosine (`L_fk5.v`).
* **C112** The models of `ApogeeParallax` and `PerigeeParallax` (`M_lunar.v`): all terms but those of the elongation are bounded; the elongation is tied to the published mean motion through C95 (`L_apsis.v`).
* **C113** The models of `Position` and `PositionRonVondrak` (`M_apparent.v`): first-order displacements as vectors (C67, C97, C99), the second-order remainders by the tangent lemma of C111 (`L_apparent5.v`).
* **C114** The constants and `Stdh0Lunar` (`M_rise.v`, `M_semidiameter.v`) against the geometry of a sphere on the horizon (`S_stdalt.v`), with the ranges of C86 and of the solar radius (`L_stdalt.v`).
* **C115** The model of `Asteroid` (`M_light.v`) against the angle subtended by a sphere (`S_stdalt.v`). False by a factor of two; what it returns is identified.
* **C116** The model of `True2000` (`M_solar.v`) against the ecliptic precession of C43: the inclination of the two ecliptics enters the longitude only to second order (`L_sun2000.v`).
* **C117** Model of the name table (exact bytes) with the index panic; the exact range 0..13 of the converted month follows from the closed form of JulianToMoslem used for C12; the days on which the month is 0 or 13 are characterised.
* **C118** The length of the meridian is specified by its rate (speed of the point of the ellipse); Distance along a meridian is the integral of the expansion of the radius of curvature to first order in the flattening, whose remainder is bounded; the correction factors are bounded by convexity for any two places.
* **C119** S_conic.v states Kepler's second law with no reference to the code's variables: a passage time tau has tau(0) = 0 and derivative r^2 / areal rate. L_nearpar.v relates tau to the integral of (1+u^2)/(1+g u^2)^2 in u = tan(v/2), gives the remainder of the partial sums of its series in closed form, shows that a series that stopped within 50 terms has |g| u^2 <= 7/10, and adds the residuals of the Newton step and of the outer loop. Existence of tau is proved by explicit primitives in the three cases.
* **C120** S_conic.v's passage_time is shown unique (its difference of two has derivative 0) and, by C119, to exist. With u = tan(v/2) the law is dw = (1+u^2)/(1+g u^2)^2 du; substituting u = sqrt((1+e)/(1-e)) tan(E/2) the derivative of w minus Kepler's equation vanishes, for e = 1 the primitive is Barker's cubic. The mean value theorem gives the identities.
* **C121** L_nearpar2.v: the series loop ends within 22 terms; in the variable p = s + s^3/3 a round of the outer loop contracts the residual of the equation of motion by 0.11 up to 2.9e-10 (mean value theorem for p minus the integral of the law of areas, remainder of the truncated series, residual of the Newton loop), stays in the region, and reaches the threshold within 21 of the 50 rounds. The Newton loop, unbounded in the code, is given enough rounds by C59.
* **C122** `P_rise2.v`, lemmas in `L_rise2.v`. Transit: the hour angle after the step is the gain of the sidereal clock and the motion of the body during the step. Rising and setting: tangent of the cosine with second-order remainder, the deviation of arcsine from identity, and Lipschitz bounds of the altitude and of the interpolating parabola.
* **C123** `P_rise3.v`, lemmas in `L_rise4.v`. The sine of the altitude is affine in the cosine of the hour angle, which decreases on half a turn.
* **C124** `P_rise4.v`, lemmas in `L_rise5.v`. Only the hour angle modulo a turn enters the corrections; reduction of the times to a day respects congruence.

Constants. `P_values.v` (lemmas in `L_values.v`) and part of `P_physical.v` write out as decimals the constants and
series that other theorems mention by name (C49, C58, C71, C76, C82, C83, C84, C85, C87), so that a wrong digit in the
model makes a theorem fail. There was no copy of the book in the sandbox: these decimals were read from the Go source,
so the theorems guard the model against slips and do not establish that the source agrees with the book. The exception
is `S_rotation.v`: the rotation periods in seconds used in C83_rotation and C84_rotation do not occur in the source and
were stated from memory.

## 3. Where the code does not have the property

Each entry is a theorem about the model (the claim is given) or, where no claim
is named, an observation made while modelling.

Calendars
* `julian.JDToCalendar` starts the Gregorian calendar ten days early (2299151 for 2299161): C04.
* `julian.DayOfWeek` is wrong before JD -1: C06.
* `jm.MoslemToJulian` gives day 0 on some dates; `jm.JulianToMoslem` tests the leap rule on the Julian year and can return month 13: C11, C12.
* `jm.JewishCalendar` reports months of one Jewish year with the days of the next, and dates such as 31 April: C14. `jm.MMonth.String` panics outside 1..12.

Numerics
* `iterate.BinaryRoot` misses a root at the lower bound: C17. `iterate.FullPrecision` never accepts the limit 0: C18.
* `interp.Len3.Zero` and `Len5.Zero` fail when the middle value is exactly 0: C22. `Len5.InterpolateXStrict` rejects the outer half of the table: C20. `Len5.Extremum` uses h+k for h+j: C24.
* `conjunction.Planetary` therefore misses conjunctions in the outer half or on the middle row, and those where right ascension passes 24h: C64.
* `deltat.Interp10A` reads the table a day early: C60.

Spherical astronomy
* `angle.Sep` does not wrap the difference of longitude and is not symmetric in its small branch: C32. `angle.RelativePosition` is mirrored: C33. `line.Error` changes sign with the quadrant: C33.
* `globe.Distance` is NaN for equal and antipodal points: C42.
* `elementequinox.ReduceElements` is wrong for zero inclination and equal epochs; `ReduceB1950ToJ2000` turns retrograde orbits: C58.
* `sidereal.Apparent0UT` adds the fraction of the day; `Mean0UT` takes the wrong day for negative JD: C45.
* `rise.Times` can leave the day, does not unwrap right ascension, pads short tables with zeros and panics on long ones: C47, C94.
* `parallax.Topocentric` returns the opposite direction when the pole lies between: C55.
* `refraction.Bennett`, `Bennett2`, `Saemundsson` are negative near the zenith: C80.
* `parallactic.DiurnalPathAtHorizon` is negative for southern latitudes: C79.
* `sundial.Horizontal` keeps points of the polar night and infinite points: C53.
* `apparent.Position` and `PositionRonVondrak` add the corrections to the declination: for a star at the pole the declination returned exceeds 90 degrees (`C98_declination_refuted`).

Orbits
* `kepler.Kepler2a` accepts a Newton step of pi: C35.
* `elliptic.Length1` is below 4a for large eccentricity: C62.
* `perihelion.Perihelion2` and `Aphelion2` loop forever for a zero step or tied samples: C68.
* `planetelements.Mean` and `Node` panic for Earth: C81.
* `planetposition.LoadPlanetPath` hangs on a series of length 0 and panics on truncated files, short lines, too many terms or powers above 5: C52.

Moon, Sun and planets
* Integer quotients of constants: `moonposition.Node`, `Perigee`, `moon`, `moonillum`, `semidiameter.Moon`: C57, C72.
* The documented half day between mean and true phases is exceeded: C69. `moonmaxdec` and `moonphase` snap to an index whose origin is days off: C48.
* The coefficient of the Sun's mean anomaly is -.0001535 in `moon`, `moonillum`, `moonposition` (published: -.0001536).
* `moonphase` has a missing multiplication by the degree factor in one argument (A[0], 299.7 for 299.77).
* `illum.FractionVenus` exceeds 1 slightly: C51. `illum.Venus84` has swapped signs, `illum.Saturn84` divides by |dU|: C71.
* `moonillum.PhaseAngle3` is negative in the second half of the lunation: C57.
* `saturnring.Ring` does not wrap the difference of longitudes, which `illum.Saturn` uses: C85.
* `mars.Physical` can return an illuminated fraction above 1 (the Earth's latitude is partly omitted): C83.
* `moon.Sunrise` and `Sunset` use a fixed sign of the rate: C88. `moon` passes a longitude with nutation to a frame without: C87.
* `jupitermoons.E5` does not convert Jupiter to FK5 as documented: C92.
* `solstice.March2` and the others do not end on a NaN or a Sun that stands still: C78.
* `planetposition.Position`, `moonposition.Position` and `solar.ApparentLongitude` return longitudes that are not normalised; ranges of position angles differ between `mars`, `jupiter` ([0,2pi)) and `saturnring` ((-pi,pi]).

## 4. Testing the theorems

`seeded/LOG.jsonl` records edits of the model, each a plausible bug, and the
theorems that stopped proving.  The edits were made in a scratch copy; lemmas
that no longer proved were admitted one by one there, and the theorems that
depend on an admitted lemma are listed.
