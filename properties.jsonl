{"id": "C01", "title": "Floor division is the mathematical floor", "statement": "base.FloorDiv(x, y) and base.FloorDiv64(x, y) return the largest integer not greater than the exact quotient x/y, for every sign combination; they panic exactly when y = 0, and the only other departure is the int64 overflow x = -2^63, y = -1.", "quantifier": "every pair of 64-bit signed integers x, y", "why_tests_cant": "2^128 input pairs with four sign quadrants and exact-multiple corner cases", "anchors": ["v3/base/math.go#FloorDiv", "v3/base/math.go#FloorDiv64"]}
{"id": "C02", "title": "Gregorian date to Julian Day counts days of the Gregorian calendar", "statement": "julian.CalendarGregorianToJD assigns to successive Gregorian dates (under the 4/100/400 leap rule and the usual month lengths) Julian Day numbers that increase by exactly 1, is anchored at 2000-01-01.5 = 2451545, and adds the fraction of day unchanged; hence it is the exact day count for every year.", "quantifier": "every year whose intermediate products fit int64, every month 1..12 and day of month", "why_tests_cant": "infinitely many dates; century and month boundaries and negative years are sampled by a handful of book examples", "anchors": ["v3/julian/julian.go#CalendarGregorianToJD"]}
{"id": "C03", "title": "Julian-calendar date to Julian Day counts days of the Julian calendar", "statement": "julian.CalendarJulianToJD assigns to successive Julian-calendar dates (leap every fourth year) Julian Day numbers that increase by exactly 1, anchored at -4712-01-01.5 = 0.", "quantifier": "every year whose intermediate products fit int64, every month and day", "why_tests_cant": "infinitely many dates including negative years", "anchors": ["v3/julian/julian.go#CalendarJulianToJD"]}
{"id": "C04", "title": "JDToCalendar inverts the calendar-to-JD functions", "statement": "For any JD >= -0.5, julian.JDToCalendar(jd) returns the date in the Gregorian calendar for days on or after 1582 October 15 and in the Julian calendar before, so converting it back with the matching CalendarGregorianToJD / CalendarJulianToJD gives jd, and every valid civil date round-trips.", "quantifier": "every Julian Day >= -0.5, equivalently every civil date", "why_tests_cant": "an off-by-some-days error confined to a short window (such as the calendar reform) is invisible to sampled dates", "anchors": ["v3/julian/julian.go#JDToCalendar", "v3/julian/julian.go#jdToCalendarGregorian", "v3/julian/julian.go#CalendarGregorianToJD", "v3/julian/julian.go#CalendarJulianToJD"]}
{"id": "C05", "title": "Day-of-year numbering and its inverse", "statement": "julian.DayOfYear* returns the ordinal of the date within its year (1 for January 1, previous day + 1 otherwise), and julian.DayOfYearToCalendar is its exact inverse for leap and common years, in both calendars.", "quantifier": "every year, every date of that year, both leap flags", "why_tests_cant": "must hold for all 731 (flag, day) pairs and for the year-dependent leap selection of all years", "anchors": ["v3/julian/julian.go#DayOfYear", "v3/julian/julian.go#DayOfYearGregorian", "v3/julian/julian.go#DayOfYearJulian", "v3/julian/julian.go#DayOfYearToCalendar", "v3/julian/julian.go#LeapYearGregorian", "v3/julian/julian.go#LeapYearJulian"]}
{"id": "C06", "title": "DayOfWeek is the weekday of a Julian Day", "statement": "julian.DayOfWeek(jd) is in 0..6, is constant over each civil day (from midnight to midnight), advances by one modulo 7 from each day to the next, and maps 2434923.5 (1954-06-30, Wednesday) to 3.", "quantifier": "every real jd for which an int conversion is defined", "why_tests_cant": "the claim concerns every instant, including the sign-dependent behaviour of truncation and % before JD 0", "anchors": ["v3/julian/julian.go#DayOfWeek"]}
{"id": "C07", "title": "time.Time to Julian Day and back", "statement": "julian.JDToTime(julian.TimeToJD(t)) is the same instant as t in UTC (in exact arithmetic, truncated to nanoseconds), whatever t's date, and JDToTime(jd) always denotes the instant jd.", "quantifier": "every instant representable by time.Time / every jd in range", "why_tests_cant": "continuum of instants; month/year roll-over through day number 0 of time.Date", "anchors": ["v3/julian/julian.go#TimeToJD", "v3/julian/julian.go#JDToTime", "v3/julian/julian.go#jdToCalendarGregorian"]}
{"id": "C08", "title": "Gregorian Easter is the right Sunday", "statement": "For every year y >= 0, easter.Gregorian(y) returns (month, day) with the date in March 22 .. April 25, the date is a Sunday of the Gregorian calendar, and it is the first Sunday strictly after the ecclesiastical full moon fixed by the Gregorian epact rules (golden number, solar and lunar equations).", "quantifier": "every non-negative year", "why_tests_cant": "the cycle is 5,700,000 years long; exceptions (epact 24/25) occur a few times per century", "anchors": ["v3/easter/easter.go#Gregorian"]}
{"id": "C09", "title": "Julian Easter is the right Sunday", "statement": "For every year y >= 0, easter.Julian(y) returns a date in March 22 .. April 25 of the Julian calendar that is a Sunday and is the first Sunday strictly after the Julian paschal full moon given by the 19-year table.", "quantifier": "every non-negative year", "why_tests_cant": "532-year cycle; tests sample a few years", "anchors": ["v3/easter/easter.go#Julian"]}
{"id": "C10", "title": "Gregorian/Julian calendar conversion denotes the same day", "statement": "jm.GregorianToJulian and jm.JulianToGregorian convert between two names of the same day: the Julian Day of the result in its calendar equals the Julian Day of the argument in its own, and the two functions are mutually inverse.", "quantifier": "every date on or after the calendar reform (and, for JulianToGregorian, before it, where the date is returned unchanged)", "why_tests_cant": "all dates, including February 29 that exists in one calendar only", "anchors": ["v3/jm/jm.go#GregorianToJulian", "v3/jm/jm.go#JulianToGregorian"]}
{"id": "C11", "title": "Moslem to Julian conversion follows the tabular Islamic calendar", "statement": "jm.MoslemToJulian(y, m, d) is the Julian-calendar year and day-of-year of the given date of the civil tabular Islamic calendar: alternate 30/29-day months, eleven leap years in each 30-year cycle, epoch 622 July 16.", "quantifier": "every year y >= 1, month 1..12, valid day", "why_tests_cant": "unbounded number of years; the algorithm mixes a 30-year and a 28-year cycle with several rollover branches", "anchors": ["v3/jm/jm.go#MoslemToJulian", "v3/jm/jm.go#MoslemLeapYear"]}
{"id": "C12", "title": "Julian to Moslem inverts Moslem to Julian", "statement": "For every Moslem date, converting it with MoslemToJulian and back with JulianToMoslem gives the same date.", "quantifier": "every date of the Moslem calendar from year 1 on", "why_tests_cant": "defects hit only the last/first days of some years; the test suite contains one date", "anchors": ["v3/jm/jm.go#JulianToMoslem", "v3/jm/jm.go#MoslemToJulian", "v3/jm/jm.go#MoslemLeapYear"]}
{"id": "C13", "title": "Moslem leap years and year length", "statement": "MoslemLeapYear(y) marks exactly 11 years of each 30-year cycle, depends only on y mod 30, and year y has 355 days (the interval between MoslemToJulian of consecutive new years) iff MoslemLeapYear(y), 354 otherwise.", "quantifier": "every year y >= 1", "why_tests_cant": "unbounded number of years", "anchors": ["v3/jm/jm.go#MoslemLeapYear", "v3/jm/jm.go#MoslemToJulian"]}
{"id": "C14", "title": "Jewish calendar output is a legal Jewish year", "statement": "For every civil year y in the supported range jm.JewishCalendar(y) reports Jewish year y+3760, a Pesach (and New Year 163 days later) on the day given by the molad and postponement rules, 12 or 13 months according to the 19-year cycle, and a number of days that is 353..355 for 12 months and 383..385 for 13 months.", "quantifier": "every civil year in the stated range", "why_tests_cant": "the postponement rules interact with floating-point constants whose error grows with the year; the test suite contains one year", "anchors": ["v3/jm/jm.go#JewishCalendar", "v3/jm/jm.go#bigD"]}
{"id": "C15", "title": "Horner evaluates the polynomial", "statement": "base.Horner(x, c0, ..., cn) = c0 + c1*x + ... + cn*x^n in exact arithmetic for any number of coefficients, and panics exactly when no coefficient is supplied.", "quantifier": "every x and every coefficient list", "why_tests_cant": "unbounded list length", "anchors": ["v3/base/math.go#Horner"]}
{"id": "C16", "title": "Epoch conversions are inverse and Cmp is a total order", "statement": "JulianYearToJDE and JDEToJulianYear, BesselianYearToJDE and JDEToBesselianYear are mutually inverse strictly increasing maps, J2000Century is affine with J2000Century(J2000)=0, and base.Cmp(a, b) is -1, 0, 1 exactly as a<b, a=b, a>b.", "quantifier": "every real argument", "why_tests_cant": "continuum of arguments", "anchors": ["v3/base/julian.go#JulianYearToJDE", "v3/base/julian.go#JDEToJulianYear", "v3/base/julian.go#BesselianYearToJDE", "v3/base/julian.go#JDEToBesselianYear", "v3/base/julian.go#J2000Century", "v3/base/math.go#Cmp"]}
{"id": "C17", "title": "BinaryRoot converges to a root in its bracket", "statement": "iterate.BinaryRoot(f, lower, upper) returns a point of [lower, upper] whose distance to a root of a continuous f with f(lower), f(upper) of opposite sign is at most (upper-lower)/2^51, whichever end is negative.", "quantifier": "every continuous function changing sign on the interval", "why_tests_cant": "quantifies over all functions", "anchors": ["v3/iterate/iterate.go#BinaryRoot"]}
{"id": "C18", "title": "DecimalPlaces and FullPrecision report convergence honestly", "statement": "When iterate.DecimalPlaces(better, start, places, max) returns nil error the result r satisfies r = better(r') with |r - r'| < 10^-places for the previous iterate r'; when it returns an error, better was applied exactly max times and no two successive iterates were that close. FullPrecision likewise with |r - r'| < 1e-15 |r'| (or the library's relative test).", "quantifier": "every refinement function, start, accuracy and iteration limit", "why_tests_cant": "quantifies over all functions and iteration counts", "anchors": ["v3/iterate/iterate.go#DecimalPlaces", "v3/iterate/iterate.go#FullPrecision"]}
{"id": "C19", "title": "Three-point interpolation is the unique parabola", "statement": "Len3.InterpolateX reproduces the three table values at their abscissae and is exact for every quadratic; InterpolateN is the same curve in the normalized argument; the constructor rejects tables whose length is not 3 or whose x1 = x3.", "quantifier": "every table of three values, every x", "why_tests_cant": "continuum of tables", "anchors": ["v3/interp/interp.go#NewLen3", "v3/interp/interp.go#Len3.InterpolateN", "v3/interp/interp.go#Len3.InterpolateX"]}
{"id": "C20", "title": "Strict interpolation rejects exactly the out-of-table arguments", "statement": "Len3.InterpolateXStrict returns ErrorXOutOfRange iff x lies outside [x1, x3] (InterpolateNStrict iff n outside [-1, 1]), and otherwise equals the non-strict result; Len5.InterpolateXStrict does the same for the table range [x1, x5] given to the constructor.", "quantifier": "every table and every argument", "why_tests_cant": "continuum of arguments; boundary behaviour", "anchors": ["v3/interp/interp.go#Len3.InterpolateXStrict", "v3/interp/interp.go#Len3.InterpolateNStrict", "v3/interp/interp.go#Len5.InterpolateXStrict", "v3/interp/interp.go#Len5.InterpolateNStrict"]}
{"id": "C21", "title": "Len3.Extremum is the extremum of the interpolating parabola", "statement": "Len3.Extremum returns (x, y) with y the value at x, derivative zero there, y the maximum or minimum over all x; it returns ErrorNoExtremum iff the second difference is zero and ErrorExtremumOutside iff the vertex lies outside the table.", "quantifier": "every three-value table", "why_tests_cant": "continuum of tables", "anchors": ["v3/interp/interp.go#Len3.Extremum"]}
{"id": "C22", "title": "Zero finding returns a zero of the interpolating curve whenever one is there", "statement": "If Len3.Zero or Len5.Zero returns without error the interpolated value at the returned x is (up to the convergence tolerance) zero and x is in the table range; and a table with an exact zero at its middle row yields that row's x.", "quantifier": "every table", "why_tests_cant": "depends on the iteration history for every table; the exact-middle case divides 0 by 0", "anchors": ["v3/interp/interp.go#Len3.Zero", "v3/interp/interp.go#Len5.Zero", "v3/interp/interp.go#iterate"]}
{"id": "C23", "title": "Five-point interpolation is the unique quartic", "statement": "Len5.InterpolateX reproduces the five table values at their abscissae and is exact for every polynomial of degree at most 4.", "quantifier": "every table of five values, every x", "why_tests_cant": "continuum of tables", "anchors": ["v3/interp/interp.go#NewLen5", "v3/interp/interp.go#Len5.InterpolateN", "v3/interp/interp.go#Len5.InterpolateX"]}
{"id": "C24", "title": "Len5.Extremum is a stationary point of the interpolating quartic", "statement": "When Len5.Extremum returns without error, the derivative of the five-point interpolating quartic vanishes at the returned x (up to convergence tolerance) and y is the value there.", "quantifier": "every five-value table", "why_tests_cant": "one wrong coefficient of the fixed-point equation is invisible on tables with a vanishing third difference", "anchors": ["v3/interp/interp.go#Len5.Extremum"]}
{"id": "C25", "title": "Len3ForInterpolateX picks rows inside the table around x", "statement": "interp.Len3ForInterpolateX(x, x1, xn, y) with at least 3 rows never reads outside y, returns an interpolator on three consecutive rows of y with their true abscissae, and for x inside the table the central row is nearest to x among the possible central rows; so table abscissae reproduce table values.", "quantifier": "every table length >= 3 and every x", "why_tests_cant": "unbounded table length, rounding boundaries", "anchors": ["v3/interp/interp.go#Len3ForInterpolateX"]}
{"id": "C26", "title": "Len4Half is exact for cubics", "statement": "interp.Len4Half returns the mid-point value of the cubic through four equidistant values, and an error iff the slice does not have length 4.", "quantifier": "every four values", "why_tests_cant": "continuum of values", "anchors": ["v3/interp/interp.go#Len4Half"]}
{"id": "C27", "title": "Lagrange interpolation is the interpolating polynomial", "statement": "interp.Lagrange(x, table) with pairwise distinct abscissae passes through every table point, reproduces every polynomial of degree smaller than the table length, and does not depend on the order of the rows.", "quantifier": "every table length, every table with distinct abscissae, every x", "why_tests_cant": "unbounded table size", "anchors": ["v3/interp/interp.go#Lagrange"]}
{"id": "C28", "title": "LagrangePoly returns the coefficients of the Lagrange polynomial", "statement": "Evaluating the coefficients returned by interp.LagrangePoly(table) with base.Horner gives interp.Lagrange(x, table) for every x; the result has exactly len(table) coefficients.", "quantifier": "every table length, every table with distinct abscissae, every x", "why_tests_cant": "unbounded table size; in-place update of a shared product array", "anchors": ["v3/interp/interp.go#LagrangePoly", "v3/interp/interp.go#Lagrange", "v3/base/math.go#Horner"]}
{"id": "C29", "title": "Linear fit is the least-squares line", "statement": "fit.Linear(points) = (a, b) minimises the sum of squared residuals of y = a x + b over all lines, for every point set with at least two distinct x.", "quantifier": "every point set, every competing line", "why_tests_cant": "quantifies over all competitors and data sizes", "anchors": ["v3/fit/fit.go#Linear"]}
{"id": "C30", "title": "Quadratic and three-function fits are least-squares optimal", "statement": "fit.Quadratic, fit.Func3 and fit.Func1 return the coefficients minimising the sum of squared residuals over the corresponding function space, whenever the normal equations are non-singular.", "quantifier": "every point set and every three functions", "why_tests_cant": "quantifies over all competitors and data sizes", "anchors": ["v3/fit/fit.go#Quadratic", "v3/fit/fit.go#Func3", "v3/fit/fit.go#Func1"]}
{"id": "C31", "title": "Correlation coefficient lies in [-1, 1]", "statement": "fit.CorrelationCoefficient is in [-1, 1], is +1 or -1 for non-degenerate exactly linear data, is symmetric in x and y and invariant under positive rescaling.", "quantifier": "every non-degenerate point set", "why_tests_cant": "unbounded data sizes", "anchors": ["v3/fit/fit.go#CorrelationCoefficient"]}
{"id": "C32", "title": "Angular separation functions agree with the spherical law of cosines", "statement": "angle.Sep, angle.SepHav and angle.SepPauwels return the great-circle distance in [0, pi] of the two directions: its cosine is the inner product of the unit vectors. They are symmetric in the two points, and unaffected by adding a full turn to a longitude.", "quantifier": "every pair of directions", "why_tests_cant": "continuum of pairs; the small-angle branches are reached only near coincidence", "anchors": ["v3/angle/angle.go#Sep", "v3/angle/angle.go#SepHav", "v3/angle/angle.go#SepPauwels"]}
{"id": "C33", "title": "Relative position angle and collinearity formulas", "statement": "angle.RelativePosition is the direction of the displaced point as seen from the reference point (its sine and cosine are proportional to the tangential components), and line.Error / line.Angle / line.AngleError return the quantities of the great circle through the points.", "quantifier": "every pair / triple of directions", "why_tests_cant": "continuum of inputs", "anchors": ["v3/angle/angle.go#RelativePosition", "v3/line/line.go#Time", "v3/line/line.go#Angle", "v3/line/line.go#Error", "v3/line/line.go#AngleError"]}
{"id": "C34", "title": "Smallest circle contains the three points", "statement": "circle.Smallest returns a diameter that does not depend on the order of the bodies, is at least the largest of the three separations, and equals the circumscribed circle's diameter for acute triangles and the longest side otherwise.", "quantifier": "every triple of positions (side lengths satisfying the triangle inequality)", "why_tests_cant": "continuum of triples, six orderings", "anchors": ["v3/circle/circle.go#Smallest"]}
{"id": "C35", "title": "Kepler solvers return a solution of Kepler's equation", "statement": "When kepler.Kepler1/2/2a/2b return without error, the result E satisfies |E - e sin E - M| <= a bound tied to the requested number of decimal places; and otherwise the error is reported.", "quantifier": "every eccentricity 0 <= e < 1, every mean anomaly, every places", "why_tests_cant": "convergence depends on (e, M) over a continuum", "anchors": ["v3/kepler/kepler.go#Kepler1", "v3/kepler/kepler.go#Kepler2", "v3/kepler/kepler.go#Kepler2a", "v3/kepler/kepler.go#Kepler2b"]}
{"id": "C36", "title": "Kepler3 converges for every eccentricity and anomaly", "statement": "kepler.Kepler3(e, M) returns, for all 0 <= e < 1 and all M, the solution of Kepler's equation congruent to the true one modulo a full turn, with error at most pi/2^53 in exact arithmetic.", "quantifier": "every 0 <= e < 1 and every real M", "why_tests_cant": "continuum of inputs, three range-reduction branches", "anchors": ["v3/kepler/kepler.go#Kepler3"]}
{"id": "C37", "title": "True anomaly and radius vector are consistent", "statement": "kepler.True and kepler.Radius satisfy the ellipse equation r = a(1-e^2)/(1+e cos v) = a(1 - e cos E), so position computed either way is the same, for every E.", "quantifier": "every 0 <= e < 1, every eccentric anomaly", "why_tests_cant": "continuum, half-angle branch", "anchors": ["v3/kepler/kepler.go#True", "v3/kepler/kepler.go#Radius"]}
{"id": "C38", "title": "Parabolic motion solves Barker's equation", "statement": "parabolic.Elements.AnomalyDistance returns v and r satisfying Barker's equation for the time since perihelion, r >= q with equality only at perihelion, symmetric in time about perihelion.", "quantifier": "every perihelion distance q > 0 and every time", "why_tests_cant": "continuum of inputs", "anchors": ["v3/parabolic/parabolic.go#AnomalyDistance"]}
{"id": "C39", "title": "Ecliptic/equatorial conversion is a rotation with exact inverse", "statement": "coord.EqToEcl and coord.EclToEq are mutually inverse for every obliquity (away from the poles' undefined longitude): the unit vectors are related by a rotation about the equinox, right ascension is returned in [0, 2pi), declination/latitude in [-pi/2, pi/2].", "quantifier": "every direction with |latitude| < pi/2 and every obliquity", "why_tests_cant": "continuum of directions; quadrant selection by atan2", "anchors": ["v3/coord/coord.go#EqToEcl", "v3/coord/coord.go#EclToEq", "v3/coord/coord.go#Ecliptic.EqToEcl", "v3/coord/coord.go#Equatorial.EclToEq"]}
{"id": "C40", "title": "Horizontal conversion round-trips and preserves the hour-angle relation", "statement": "coord.EqToHz and coord.HzToEq are mutually inverse: altitude satisfies sin h = sin phi sin delta + cos phi cos delta cos H, and converting back gives the original right ascension (mod 2pi) and declination.", "quantifier": "every observer latitude, sidereal time and direction not at zenith/pole", "why_tests_cant": "continuum of inputs; sign conventions of azimuth and longitude", "anchors": ["v3/coord/coord.go#EqToHz", "v3/coord/coord.go#HzToEq"]}
{"id": "C41", "title": "Galactic conversion round-trips", "statement": "coord.EqToGal and coord.GalToEq are mutually inverse (B1950) and isometric, with galactic north pole mapped to latitude pi/2.", "quantifier": "every direction away from the respective poles", "why_tests_cant": "continuum of directions", "anchors": ["v3/coord/coord.go#EqToGal", "v3/coord/coord.go#GalToEq"]}
{"id": "C42", "title": "Earth ellipsoid quantities are consistent", "statement": "globe.Ellipsoid.ParallaxConstants at sea level give a point of the meridian ellipse, RadiusAtLatitude, RadiusOfCurvature and OneDegreeOfLongitude / OneDegreeOfLatitude are those of the meridian ellipse, and globe.Ellipsoid.Distance is symmetric in its arguments and 0 for equal points.", "quantifier": "every latitude / pair of points", "why_tests_cant": "continuum of inputs; 0/0 at coincident points", "anchors": ["v3/globe/globe.go#Ellipsoid.ParallaxConstants", "v3/globe/globe.go#Ellipsoid.RadiusAtLatitude", "v3/globe/globe.go#Ellipsoid.RadiusOfCurvature", "v3/globe/globe.go#Ellipsoid.Distance", "v3/globe/globe.go#GeocentricLatitudeDifference"]}
{"id": "C43", "title": "Precession is a rotation and the identity between equal epochs", "statement": "precess.Precessor.Precess and EclipticPrecessor.Precess map directions by a rotation (angular separations between any two stars are preserved), are the identity when the two epochs are equal, return RA in [0, 2pi), and the near-pole branch returns the same declination as the general branch.", "quantifier": "every pair of epochs and every direction", "why_tests_cant": "continuum of directions, branch near the pole", "anchors": ["v3/precess/precess.go#NewPrecessor", "v3/precess/precess.go#Precessor.Precess", "v3/precess/precess.go#NewEclipticPrecessor", "v3/precess/precess.go#EclipticPrecessor.Precess"]}
{"id": "C44", "title": "Same-struct arguments are safe", "statement": "For every function documented to allow the source and destination pointers to be the same struct (precess.Position, ApproxPosition, EclipticPosition, ProperMotion3D, Precessor.Precess, ReduceElements, the elementequinox reductions, apparent.Position, PositionRonVondrak), calling it with aliased pointers stores the same result as calling it with distinct structs, and distinct source structs are left unchanged.", "quantifier": "every input value and every aliasing pattern", "why_tests_cant": "aliasing bugs appear only for specific field read/write orders", "anchors": ["v3/precess/precess.go#Precess", "v3/precess/precess.go#Position", "v3/precess/precess.go#ApproxPosition", "v3/precess/precess.go#EclipticPosition", "v3/elementequinox/elementequinox.go#ReduceB1950ToJ2000", "v3/elementequinox/elementequinox.go#ReduceB1950FK4ToJ2000FK5"]}
{"id": "C45", "title": "Sidereal time functions are ranged, continuous over the day, and daily functions are constant over a day", "statement": "sidereal.Mean, Apparent, Mean0UT, Apparent0UT are in [0, 86400) seconds; Mean0UT and Apparent0UT depend only on the calendar day (0h UT) of jd as documented; Mean(jd) = Mean0UT(jd) + 1.00273790935 * UT (mod a day).", "quantifier": "every jd", "why_tests_cant": "continuum of instants", "anchors": ["v3/sidereal/sidereal.go#Mean", "v3/sidereal/sidereal.go#Mean0UT", "v3/sidereal/sidereal.go#Apparent", "v3/sidereal/sidereal.go#Apparent0UT"]}
{"id": "C46", "title": "Approximate rise/transit/set times are in the day and satisfy the altitude equation", "statement": "rise.ApproxTimes returns ErrorCircumpolar iff the body never crosses altitude h0 at that latitude; otherwise the three times are in [0, 86400), transit is at zero hour angle, and at rise and set the altitude equals h0 in the linear-sidereal-time model.", "quantifier": "every latitude, declination, longitude, sidereal time, h0", "why_tests_cant": "continuum of inputs, wrap-around at midnight", "anchors": ["v3/rise/rise.go#ApproxTimes", "v3/rise/rise.go#ApproxPlanet"]}
{"id": "C47", "title": "rise.Times corrections stay within the documented range", "statement": "rise.Times returns times of day as documented in [0, 86400) and errors rather than producing silent garbage when the interpolation tables do not have three rows.", "quantifier": "every input", "why_tests_cant": "wrap-around occurs only for events near midnight or hour angles near a full turn", "anchors": ["v3/rise/rise.go#Times"]}
{"id": "C48", "title": "Mean lunation/apsis/node snapping picks the nearest event", "statement": "moonphase.MeanNew/First/Full/Last, eclipse and apsis/moonnode/planetary functions evaluate at an index k of the right fractional class (integer, +1/4, +1/2, +3/4) that is nearest to the requested decimal year: no other index of that class is closer.", "quantifier": "every decimal year", "why_tests_cant": "ties and class offsets over a continuum", "anchors": ["v3/moonphase/moonphase.go#MeanNew", "v3/moonphase/moonphase.go#snap", "v3/apsis/apsis.go#MeanPerigee", "v3/eclipse/eclipse.go#Solar", "v3/eclipse/eclipse.go#Lunar", "v3/perihelion/perihelion.go#Perihelion", "v3/perihelion/perihelion.go#Aphelion", "v3/planetary/planetary.go#MercuryInfConj"]}
{"id": "C49", "title": "Lunar eclipse classification is consistent", "statement": "eclipse.Lunar never takes the square root of a negative number: total implies a real total semi-duration not larger than the partial one, which is not larger than the penumbral one; the type, magnitude and semi-durations returned are mutually consistent.", "quantifier": "every year / every gamma and u in their reachable ranges", "why_tests_cant": "depends on thresholds of gamma and u over a continuum", "anchors": ["v3/eclipse/eclipse.go#Lunar"]}
{"id": "C50", "title": "Solar eclipse classification is consistent", "statement": "eclipse.Solar returns None exactly when |gamma| exceeds the penumbral limit; partial, non-central and central types partition the remaining cases as in the book's decision table; magnitude is reported only for partial eclipses and is positive.", "quantifier": "every gamma and u", "why_tests_cant": "decision table with many thresholds", "anchors": ["v3/eclipse/eclipse.go#Solar"]}
{"id": "C51", "title": "Illuminated fraction agrees between formulas and lies in [0, 1]", "statement": "base.Illuminated is in [0, 1]; illum.Fraction(r, Delta, R) equals base.Illuminated(illum.PhaseAngle(r, Delta, R)) and lies in [0, 1] for any physically possible triangle; moonillum phase angles lie in [0, pi].", "quantifier": "every triangle of distances", "why_tests_cant": "continuum of inputs", "anchors": ["v3/base/phase.go#Illuminated", "v3/base/phase.go#Limb", "v3/illum/illum.go#PhaseAngle", "v3/illum/illum.go#Fraction", "v3/illum/illum.go#PhaseAngle2", "v3/illum/illum.go#PhaseAngle3", "v3/moonillum/moonillum.go#PhaseAngleEq", "v3/moonillum/moonillum.go#PhaseAngleEcl"]}
{"id": "C52", "title": "VSOP87 file parsing never hangs or crashes on malformed data", "statement": "planetposition.LoadPlanetPath terminates and either returns a table or an error for every file content; a well-formed file yields exactly the terms it contains.", "quantifier": "every byte content of the data file", "why_tests_cant": "infinitely many malformed files", "anchors": ["v3/planetposition/planetposition.go#LoadPlanetPath", "v3/planetposition/planetposition.go#LoadPlanet"]}
{"id": "C53", "title": "Sundial lines satisfy the gnomon geometry and the special cases agree", "statement": "sundial.General specialises to Horizontal (z = 0, D = 0) and to Vertical (z = pi/2); every returned point corresponds to an instant with the Sun above the horizon and on the illuminated side of the plane; coordinates are finite.", "quantifier": "every latitude, declination and inclination of the plane", "why_tests_cant": "continuum of inputs; NaN comparisons at polar latitudes and a division by tan(0) at the equinoxes", "anchors": ["v3/sundial/sundial.go#General", "v3/sundial/sundial.go#Equatorial", "v3/sundial/sundial.go#Horizontal", "v3/sundial/sundial.go#Vertical"]}
{"id": "C54", "title": "Stellar magnitude arithmetic", "statement": "stellar.Ratio and stellar.Difference are inverse; stellar.Sum is symmetric and agrees with SumN on two stars; SumN is independent of order and brighter than each component; AbsoluteByParallax and AbsoluteByDistance agree when distance = 1/parallax.", "quantifier": "every magnitudes list", "why_tests_cant": "unbounded lists, continuum of values", "anchors": ["v3/stellar/stellar.go#Sum", "v3/stellar/stellar.go#SumN", "v3/stellar/stellar.go#Ratio", "v3/stellar/stellar.go#Difference", "v3/stellar/stellar.go#AbsoluteByParallax", "v3/stellar/stellar.go#AbsoluteByDistance"]}
{"id": "C55", "title": "Diurnal parallax formulas agree", "statement": "parallax.Topocentric equals the exact vector subtraction of the observer position, and Topocentric3 / the hour-angle form give the same topocentric right ascension and declination; the corrections of Topocentric2 are the first-order displacement, with an error of the order of the square of the parallax.", "quantifier": "every direction, distance and observer", "why_tests_cant": "continuum of inputs", "anchors": ["v3/parallax/parallax.go#Topocentric", "v3/parallax/parallax.go#Topocentric2", "v3/parallax/parallax.go#Topocentric3", "v3/parallax/parallax.go#TopocentricEcliptical"]}
{"id": "C56", "title": "Perihelion refinement never panics and stays in its bracket", "statement": "perihelion.Perihelion2/Aphelion2: once the three-point bracket is found, the extremum of the interpolating parabola exists and lies strictly inside the bracket, so the internal panic on Extremum error is unreachable.", "quantifier": "every radius function sampled by the search", "why_tests_cant": "quantifies over all orbits (oracle)", "anchors": ["v3/perihelion/perihelion.go#Perihelion2", "v3/perihelion/perihelion.go#Aphelion2"]}
{"id": "C57", "title": "Constant expressions denote the documented constants", "statement": "Documented numerical coefficients given as constant quotients are evaluated as real numbers: the small polynomial terms 1/545868 etc. in moonposition.Node/Perigee, moon.Physical, moonillum.PhaseAngle3 contribute, and semidiameter.Moon is 358473400/AU arc seconds.", "quantifier": "every jde", "why_tests_cant": "the omission is below the printed digits of every example", "anchors": ["v3/moonposition/moonposition.go#Node", "v3/moonposition/moonposition.go#Perigee", "v3/moonillum/moonillum.go#PhaseAngle3", "v3/semidiameter/semidiameter.go#Moon", "v3/moon/moon.go#Physical"]}
{"id": "C58", "title": "Orbital element equinox reduction is a rotation", "statement": "elementequinox.EclipticPrecessor.ReduceElements, ReduceB1950ToJ2000 and ReduceB1950FK4ToJ2000FK5 return elements describing the same orbit orientation (rotated frame), with inclination in [0, pi], for every inclination including retrograde orbits; ReduceElements handles zero inclination.", "quantifier": "every orbital element triple", "why_tests_cant": "continuum; retrograde orbits exercise the asin branch", "anchors": ["v3/elementequinox/elementequinox.go#ReduceB1950ToJ2000", "v3/elementequinox/elementequinox.go#ReduceB1950FK4ToJ2000FK5", "v3/precess/precess.go#EclipticPrecessor.ReduceElements"]}
{"id": "C59", "title": "Near-parabolic solver terminates", "statement": "nearparabolic.Elements.AnomalyDistance terminates for every input: the inner cubic iteration converges from every starting value, and non-convergence of the outer iteration is reported as an error.", "quantifier": "every q, e, time", "why_tests_cant": "non-termination cannot be observed by finite tests", "anchors": ["v3/nearparabolic/nearparabolic.go#AnomalyDistance"]}
{"id": "C60", "title": "Table interpolation of delta-T", "statement": "deltat.Interp10A reproduces the table at tabulated years and never reads outside the table for years 1620..2010; the polynomial segments are evaluated on the documented year ranges.", "quantifier": "every jde in range", "why_tests_cant": "continuum of instants, leap-year dependent year fraction", "anchors": ["v3/deltat/deltat.go#Interp10A", "v3/deltat/deltat.go#PolyBefore948", "v3/deltat/deltat.go#Poly948to1600", "v3/deltat/deltat.go#PolyAfter2000"]}
{"id": "C61", "title": "Binary star, ellipse and node computations are consistent", "statement": "node.EllipticAscending/Descending and ParabolicAscending/Descending return the time and radius at which true anomaly is -omega or pi-omega; binary.Position returns theta in [0, 2pi) and a separation consistent with the projected true orbit; binary.ApparentEccentricity is in [0, 1).", "quantifier": "every orbit", "why_tests_cant": "continuum of orbits", "anchors": ["v3/node/node.go#EllipticAscending", "v3/node/node.go#EllipticDescending", "v3/node/node.go#ParabolicAscending", "v3/node/node.go#ParabolicDescending", "v3/binary/binary.go#Position", "v3/binary/binary.go#ApparentEccentricity", "v3/binary/binary.go#M"]}
{"id": "C62", "title": "Elliptic velocity and arc-length formulas", "statement": "elliptic.Velocity is decreasing in r and agrees with VPerihelion/VAphelion at the apsides up to the rounding of the constants; Length1, Length2, Length4 of a circle equal 2 pi a; Length4 sums a series converging to the exact length of the ellipse, Length1 and Length2 approximate that length from below and above, and each result lies between 4a and 2 pi a.", "quantifier": "every a > 0, 0 <= e < 1", "why_tests_cant": "continuum of inputs", "anchors": ["v3/elliptic/elliptic.go#Velocity", "v3/elliptic/elliptic.go#VPerihelion", "v3/elliptic/elliptic.go#VAphelion", "v3/elliptic/elliptic.go#Length1", "v3/elliptic/elliptic.go#Length2", "v3/elliptic/elliptic.go#Length4"]}
{"id": "C63", "title": "Angular results stay in their documented ranges", "statement": "Functions documented to return a normalised angle or time (right ascensions, Limb position angles, parallactic and ecliptic longitudes, equation of time, sidereal and physical-ephemeris longitudes) always return a value inside the documented half-open range.", "quantifier": "every input", "why_tests_cant": "boundary values of modular reduction over a continuum", "anchors": ["v3/base/phase.go#Limb", "v3/eqtime/eqtime.go#E", "v3/eqtime/eqtime.go#ESmart", "v3/solar/solar.go#ApparentEquatorial", "v3/moonnode/moonnode.go#Ascending"]}
{"id": "C64", "title": "Time-bracketed conjunction search", "statement": "conjunction.Planetary / Stellar return the zero of the interpolated right-ascension difference and the declination difference there, or an error; a conjunction anywhere inside the five-row table is found.", "quantifier": "every pair of five-row ephemerides", "why_tests_cant": "outer-half conjunctions hit the strict range restriction", "anchors": ["v3/conjunction/conjunction.go#Planetary", "v3/conjunction/conjunction.go#Stellar"]}
{"id": "C65", "title": "Kepler4 is an approximation to third order in the eccentricity", "statement": "kepler.Kepler4(e, M) is, up to full turns, a value E with |E - e sin E - M| <= e^3.", "quantifier": "every 0 <= e < 1 and every real M", "why_tests_cant": "an approximation error bound over a continuum of inputs", "anchors": ["v3/kepler/kepler.go#Kepler4"]}
{"id": "C66", "title": "Elliptic ephemeris is the geometry of the orbit", "statement": "elliptic.Elements.Position evaluates the heliocentric vector obtained by rotating the point of the orbital plane by argument of perihelion, inclination, node and obliquity, with the eccentric anomaly solving Kepler's equation to 1e-15; AstrometricJ2000 returns the direction (right ascension in [0, 2pi), declination in [-pi/2, pi/2]) of the vector from Earth to the light-time corrected position and the exact angle between it and the Sun.", "quantifier": "every elliptic orbit, time, and Sun position", "why_tests_cant": "the formulas hide the rotation in auxiliary angles with quadrant choices for every orbit", "anchors": ["v3/elliptic/elliptic.go#Elements.Position", "v3/elliptic/elliptic.go#AstrometricJ2000"]}
{"id": "C67", "title": "Proper motion, nutation and aberration displace a star as the corresponding vectors do", "statement": "precess.Position and EclipticPosition apply the proper motion and then the precession rotation, the ecliptic form after converting the equatorial rates to the rates of the same velocity on the sphere; ProperMotion3D is uniform straight motion in space; apparent.Nutation is the infinitesimal rotation by dpsi about the ecliptic pole and deps about the equinox; Aberration, EclipticAberration and AberrationRonVondrak are the part of the Earth's velocity perpendicular to the star, the same velocity in both frames, so equatorial and ecliptic corrections describe the same displacement.", "quantifier": "every star position away from the poles, every proper motion and every date", "why_tests_cant": "the formulas are component forms whose agreement must hold in every direction", "anchors": ["v3/precess/precess.go#Position", "v3/precess/precess.go#EclipticPosition", "v3/precess/precess.go#ProperMotion3D", "v3/apparent/apparent.go#Nutation", "v3/apparent/apparent.go#Aberration", "v3/apparent/apparent.go#EclipticAberration", "v3/apparent/apparent.go#AberrationRonVondrak"]}
{"id": "C68", "title": "Perihelion search terminates", "statement": "perihelion.Perihelion2 and Aphelion2 return after finitely many evaluations of the planet's position.", "quantifier": "every radius curve, start date and step", "why_tests_cant": "non-termination depends on equal consecutive samples or a zero step, which sampled inputs rarely hit", "anchors": ["v3/perihelion/perihelion.go#Perihelion2", "v3/perihelion/perihelion.go#Aphelion2"]}
{"id": "C69", "title": "Mean phases of the Moon are within half a day of the true ones", "statement": "moonphase.MeanNew, MeanFirst, MeanFull, MeanLast are, as documented, within half a day of New, First, Full, Last for the same year.", "quantifier": "every decimal year from 1001 to 2999", "why_tests_cant": "a maximum of a sum of periodic terms over a continuum of dates", "anchors": ["v3/moonphase/moonphase.go#MeanNew", "v3/moonphase/moonphase.go#MeanFirst", "v3/moonphase/moonphase.go#MeanFull", "v3/moonphase/moonphase.go#MeanLast", "v3/moonphase/moonphase.go#New", "v3/moonphase/moonphase.go#First", "v3/moonphase/moonphase.go#Full", "v3/moonphase/moonphase.go#Last"]}
{"id": "C70", "title": "Successive lunar events follow each other", "statement": "New, first quarter, full and last quarter of the same lunation and the next new moon follow in this order; so do perigees and apogees, ascending and descending nodes, southern and northern extreme declinations; the extreme declinations are between 17.7 and 29.7 degrees.", "quantifier": "every lunation of the years 1001 to 2999 (months of 1300 to 2700 for the others)", "why_tests_cant": "ordering must survive the periodic corrections of every month", "anchors": ["v3/moonphase/moonphase.go#New", "v3/moonphase/moonphase.go#First", "v3/moonphase/moonphase.go#Full", "v3/moonphase/moonphase.go#Last", "v3/apsis/apsis.go#Perigee", "v3/apsis/apsis.go#Apogee", "v3/moonnode/moonnode.go#Ascending", "v3/moonnode/moonnode.go#Descending", "v3/moonmaxdec/moonmaxdec.go#North", "v3/moonmaxdec/moonmaxdec.go#South"]}
{"id": "C71", "title": "Planetary magnitudes follow the inverse square law and fade with phase", "statement": "Multiplying either distance by k makes every illum magnitude fainter by 5 log10 k; the magnitude of each planet whose formula has a phase term does not decrease with the phase angle (for Saturn, with |dU|), so planets are brightest at full phase for equal distances.", "quantifier": "every pair of distances and every phase angle", "why_tests_cant": "a wrong sign or a quotient in place of a product is invisible at a single sample where the argument is near one", "anchors": ["v3/illum/illum.go#Mercury", "v3/illum/illum.go#Venus", "v3/illum/illum.go#Mars", "v3/illum/illum.go#Jupiter", "v3/illum/illum.go#Saturn", "v3/illum/illum.go#Uranus", "v3/illum/illum.go#Neptune", "v3/illum/illum.go#Mercury84", "v3/illum/illum.go#Venus84", "v3/illum/illum.go#Mars84", "v3/illum/illum.go#Jupiter84", "v3/illum/illum.go#Saturn84", "v3/illum/illum.go#Uranus84", "v3/illum/illum.go#Neptune84", "v3/illum/illum.go#Pluto84"]}
{"id": "C72", "title": "Semidiameters are radius over distance", "statement": "semidiameter.MoonTopocentric is the Moon's radius over its distance from the observer, and MoonTopocentric2 agrees with it to first order; SaturnApparentPolar is the outline of the ellipsoid, between the polar and equatorial values; AsteroidDiameter keeps albedo times squared diameter proportional to brightness.", "quantifier": "every distance, observer position, hour angle and latitude", "why_tests_cant": "geometric identities over a continuum", "anchors": ["v3/semidiameter/semidiameter.go#Semidiameter", "v3/semidiameter/semidiameter.go#SaturnApparentPolar", "v3/semidiameter/semidiameter.go#MoonTopocentric", "v3/semidiameter/semidiameter.go#MoonTopocentric2", "v3/semidiameter/semidiameter.go#AsteroidDiameter"]}
{"id": "C73", "title": "VSOP87 positions are the sums of the file's series", "statement": "planetposition.V87Planet.Position2000 returns, for a loaded well-formed file, the sums of A cos(B + C tau) tau^k of its series, longitude normalised; Position is that place precessed to the date; solar.TrueVSOP87 is the opposite direction in the FK5 frame at the same distance; ApparentEquatorialVSOP87 adds nutation and aberration and uses the true obliquity.", "quantifier": "every well-formed file and every date", "why_tests_cant": "thousands of terms; sampled dates cannot show that none is lost or counted for the wrong power", "anchors": ["v3/planetposition/planetposition.go#Position2000", "v3/planetposition/planetposition.go#Position", "v3/planetposition/planetposition.go#LoadPlanetPath", "v3/solar/solar.go#TrueVSOP87", "v3/solar/solar.go#ApparentVSOP87", "v3/solar/solar.go#ApparentEquatorialVSOP87"]}
{"id": "C74", "title": "Nutation and obliquity agree with their approximations", "statement": "nutation.Nutation stays below 20 and 11 arc seconds; ApproxNutation is within the documented 0.5 arc seconds in longitude and 0.1 in obliquity of it from 1950 to 2050; MeanObliquity is within the documented 1 arc second of MeanObliquityLaskar for 10 centuries around 2000 and 10 arc seconds for 20.", "quantifier": "every date of the stated period", "why_tests_cant": "extrema of sums of 63 periodic terms", "anchors": ["v3/nutation/nutation.go#Nutation", "v3/nutation/nutation.go#ApproxNutation", "v3/nutation/nutation.go#MeanObliquity", "v3/nutation/nutation.go#MeanObliquityLaskar"]}
{"id": "C75", "title": "Rectangular solar coordinates keep direction and distance", "statement": "solarxyz.Position, PositionJ2000, PositionB1950 and PositionEquinox give the Sun opposite to the heliocentric Earth at its distance, in the respective frame; PositionEquinox applies the precession used for star places.", "quantifier": "every planet table, date and equinox", "why_tests_cant": "hand-written matrices must be rotations for every input vector", "anchors": ["v3/solarxyz/solarxyz.go#Position", "v3/solarxyz/solarxyz.go#LongitudeJ2000", "v3/solarxyz/solarxyz.go#PositionJ2000", "v3/solarxyz/solarxyz.go#PositionB1950", "v3/solarxyz/solarxyz.go#PositionEquinox"]}
{"id": "C76", "title": "Low-precision Sun follows its defining formulas", "statement": "solar.True, TrueEquatorial, ApparentLongitude, ApparentEquatorial and Radius give the Sun's place by the equation of the centre, on the ecliptic and for the stated obliquity, and a distance on the ellipse; eqtime.E is mean longitude minus apparent right ascension modulo a turn; eqtime.ESmart is Smart's formula.", "quantifier": "every date", "why_tests_cant": "identities modulo whole turns over a continuum", "anchors": ["v3/solar/solar.go#True", "v3/solar/solar.go#TrueEquatorial", "v3/solar/solar.go#ApparentLongitude", "v3/solar/solar.go#ApparentEquatorial", "v3/solar/solar.go#Radius", "v3/eqtime/eqtime.go#E", "v3/eqtime/eqtime.go#ESmart"]}
{"id": "C77", "title": "Seasons fall on the right days", "statement": "solstice.March, June, September and December give instants of the year asked for between 19 and 22 March, 19 and 25 June, 21 and 25 September and 19 and 23 December of the Gregorian calendar; the seasons follow each other in order and last 88 to 95 days, and the same season of the next year follows 365.19 to 365.29 days later, also across the change of formula at year 1000.", "quantifier": "every year from -1000 to 3000", "why_tests_cant": "two fitted polynomials with periodic terms; an error in one of them may only show in some centuries", "anchors": ["v3/solstice/solstice.go#March", "v3/solstice/solstice.go#June", "v3/solstice/solstice.go#September", "v3/solstice/solstice.go#December"]}
{"id": "C78", "title": "The high-accuracy season search finds the instant", "statement": "solstice.March2, June2, September2 and December2 end, and return the instant (to a fraction of a second) at which the Sun of the given table has apparent longitude 0, 90, 180 or 270 degrees, if the Sun moves steadily around it; for any table a result is close to an instant where the longitude is the wanted one or its opposite.", "quantifier": "every year, every VSOP87 table", "why_tests_cant": "termination and the limit of an iteration, for every table", "anchors": ["v3/solstice/solstice.go#March2", "v3/solstice/solstice.go#June2", "v3/solstice/solstice.go#September2", "v3/solstice/solstice.go#December2"]}
{"id": "C79", "title": "Angles at the horizon are those of the sphere", "statement": "parallactic.ParallacticAngle is the position angle of the zenith at the object; ParallacticAngleOnHorizon agrees with it on the western horizon; EclipticAtHorizon gives exactly the two ecliptic points on the horizon and the angle between the planes; EclipticAtEquator gives the slope of the ecliptic against the parallel of declination; DiurnalPathAtHorizon the angle of the diurnal path with the horizon, where the body reaches it.", "quantifier": "every latitude, hour angle, declination, obliquity and sidereal time", "why_tests_cant": "identities of spherical trigonometry over a continuum, quadrants included", "anchors": ["v3/parallactic/parallactic.go#ParallacticAngle", "v3/parallactic/parallactic.go#ParallacticAngleOnHorizon", "v3/parallactic/parallactic.go#EclipticAtHorizon", "v3/parallactic/parallactic.go#EclipticAtEquator", "v3/parallactic/parallactic.go#DiurnalPathAtHorizon"]}
{"id": "C80", "title": "Refraction raises bodies and keeps their order", "statement": "refraction.Gt15True, Gt15Apparent, Bennett, Bennett2 and Saemundsson are positive and decrease with altitude; corrected altitudes keep the order of the given ones; the formulas for true and apparent altitude are inverse to each other within stated bounds.", "quantifier": "every altitude from -1 to 90 degrees", "why_tests_cant": "monotonicity over a continuum; the sign changes within half a degree of the zenith", "anchors": ["v3/refraction/refract.go#Gt15True", "v3/refraction/refract.go#Gt15Apparent", "v3/refraction/refract.go#Bennett", "v3/refraction/refract.go#Bennett2", "v3/refraction/refract.go#Saemundsson"]}
{"id": "C81", "title": "Mean orbital elements are elements of the planets' orbits", "statement": "planetelements.Mean, Inc and Node return for every planet constant elements in range: semimajor axis to 0.1 %, eccentricity below 0.21, small inclination, normalised longitude, mean motion of the planet's period, orbits that do not meet; Inc and Node agree with Mean.", "quantifier": "every planet constant and every date of 20 centuries around 2000", "why_tests_cant": "a mistyped coefficient of one planet shows only far from the tested date", "anchors": ["v3/planetelements/planetelements.go#Mean", "v3/planetelements/planetelements.go#Inc", "v3/planetelements/planetelements.go#Node"]}
{"id": "C82", "title": "Solar disk orientation is that of the rotating Sun", "statement": "solardisk.Ephemeris gives the heliographic latitude and longitude of the Earth as seen from a Sun whose equator is inclined by 7.25 degrees and which turns once in 25.38 days, and the position angle of its axis; solardisk.Cycle is increasing with 27.19 to 27.37 days between rotations.", "quantifier": "every date, VSOP87 table and cycle number", "why_tests_cant": "geometric identities over a continuum; order over all integers", "anchors": ["v3/solardisk/solardisk.go#Ephemeris", "v3/solardisk/solardisk.go#Cycle"]}
{"id": "C83", "title": "Physical ephemeris of Mars", "statement": "mars.Physical gives the planetographic latitude and the central meridian of the Earth in the frame of Mars' rotating equator, the declination of the Sun, the position angle of the pole at the apparent place, the position angle of the greatest defect of illumination away from the Sun, and a diameter, defect and illuminated fraction consistent with each other; the planet is taken where the light left it.", "quantifier": "every date and every pair of VSOP87 tables", "why_tests_cant": "geometric identities over a continuum; quadrants and signs", "anchors": ["v3/mars/mars.go#Physical"]}
{"id": "C84", "title": "Physical ephemeris of Jupiter", "statement": "jupiter.Physical gives the declinations of Earth and Sun, the central meridians of both rotation systems, corrected for light time and phase, and the position angle of the pole; Physical2 solves a plane triangle and stays within the ranges of Jupiter's orbit.", "quantifier": "every date and every pair of VSOP87 tables", "why_tests_cant": "geometric identities over a continuum; a sign error of a small correction is invisible at the accuracy of published values", "anchors": ["v3/jupiter/jupiter.go#Physical", "v3/jupiter/jupiter.go#Physical2"]}
{"id": "C85", "title": "Aspect of Saturn's ring", "statement": "saturnring.Ring gives the latitudes of Earth and Sun relative to the plane of the ring, the angle between their longitudes in that plane, the position angle of the northern semiminor axis and the axes of the outer edge as a foreshortened circle; UB agrees with it.", "quantifier": "every date and every pair of VSOP87 tables", "why_tests_cant": "geometric identities over a continuum; wrap-around of the difference of longitudes", "anchors": ["v3/saturnring/saturnring.go#Ring", "v3/saturnring/saturnring.go#UB"]}
{"id": "C86", "title": "Position of the Moon", "statement": "moonposition.Position gives, for every date within twenty centuries of 2000, a longitude, latitude and distance that follow the mean longitude and the great inequalities up to a bounded remainder, never leave 355277..414724 km or 6.09 degrees of latitude; its arguments agree with Node, Perigee and the solar elements; Parallax is the angle whose sine is the Earth radius over the distance; TrueNode stays within two degrees of Node.", "quantifier": "every date within the stated centuries; every distance above the Earth's radius", "why_tests_cant": "sums of 60-term series over a continuum of dates; agreement of independent polynomials", "anchors": ["v3/moonposition/moonposition.go#Position", "v3/moonposition/moonposition.go#Parallax", "v3/moonposition/moonposition.go#Node", "v3/moonposition/moonposition.go#Perigee", "v3/moonposition/moonposition.go#TrueNode"]}
{"id": "C87", "title": "Physical ephemeris of the Moon", "statement": "moon.Physical gives the selenographic position of the Earth and of the Sun in the frame of the lunar equator, optical part exactly and physical librations to first order, with the librations bounded; and the position angle of the lunar axis at the Moon's place.", "quantifier": "every date (bounds: within twenty centuries of 2000) and every VSOP87 table of the Earth", "why_tests_cant": "geometric identities and bounds over a continuum of dates", "anchors": ["v3/moon/moon.go#Physical"]}
{"id": "C88", "title": "Sun over the lunar horizon", "statement": "moon.SunAltitude is the altitude of the Sun above the horizon of a point of the Moon; Sunrise and Sunset return a time when the Sun crosses the horizon of the point, upwards and downwards respectively.", "quantifier": "every point of the Moon, every date and table", "why_tests_cant": "distinguishing rising from setting depends on the starting time; a sample cannot show it for every start", "anchors": ["v3/moon/moon.go#SunAltitude", "v3/moon/moon.go#Sunrise", "v3/moon/moon.go#Sunset"]}
{"id": "C89", "title": "Position of Pluto", "statement": "pluto.Heliocentric stays for every date between 29.64 and 51.81 au, within the inclination of Pluto's orbit and within 35.1 degrees of the mean longitude, and repeats after every number of sidereal periods up to the small perturbations; pluto.Astrometric is the J2000 direction, from the Earth at the given time, of Pluto at the time its light left, with normalised right ascension.", "quantifier": "every date, every integer number of periods, every VSOP87 table of the Earth", "why_tests_cant": "bounds of a 43-term series over a continuum of dates; one wrong sign in the table is within test tolerance at most dates", "anchors": ["v3/pluto/pluto.go#Heliocentric", "v3/pluto/pluto.go#Astrometric"]}
{"id": "C90", "title": "Satellites of Saturn", "statement": "saturnmoons.Positions returns, in the order Mimas to Iapetus, the offsets of the satellites towards the west and along the projected pole of the ring, in perspective and with differential light time, of places on orbits in the frame of the ring plane: slightly inclined for the inner four, ellipses with the equation of the centre for the outer four; the satellites keep their order of distance, and the Mimas-Tethys and Enceladus-Dione resonances hold; the planet is taken where the light left it, for the equinox of 1950.", "quantifier": "every date of five (resonances: ten) centuries around 1885 and every pair of VSOP87 tables", "why_tests_cant": "geometric identities over a continuum of dates; quadrants of the auxiliary angles", "anchors": ["v3/saturnmoons/saturnmoons.go#Positions"]}
{"id": "C91", "title": "Satellites of Jupiter, low accuracy", "statement": "jupitermoons.Positions returns, in the order Io to Callisto, the offsets of the satellites as the projection on the sky of places in the plane of Jupiter's equator seen from the latitude of the Earth that jupiter.Physical2 gives; distances keep their order and ranges at every date; the Laplace relation of the first three holds for two thousand years, so they are never all in one direction; and before the periodic terms the four longitudes agree with those of E5 within .36 degrees for three centuries around 2000.", "quantifier": "every date (Laplace relation: within 2000 years of 2000; agreement: within three centuries)", "why_tests_cant": "a resonance and the agreement of two independent theories over a continuum of dates cannot be sampled", "anchors": ["v3/jupitermoons/jupitermoons.go#Positions"]}
{"id": "C92", "title": "Satellites of Jupiter, theory E5", "statement": "jupitermoons.E5 takes Jupiter and its satellites at the time the light left them, places each satellite by longitude, latitude and distance in the frame of Jupiter's equator on its mean orbit, and returns the offsets towards the west and along the projected pole, in perspective with differential light time; for every value of the arguments the periodic terms are bounded so that orbits do not meet; the Laplace relation holds; the theory does not depend on the origin of longitudes.", "quantifier": "every date within twenty centuries of 2000 and every pair of VSOP87 tables; every value of the seventeen arguments", "why_tests_cant": "bounds and invariance of 200 periodic terms: a wrong argument in a small term is within the tolerance of a test date", "anchors": ["v3/jupitermoons/jupitermoons.go#E5"]}
{"id": "C93", "title": "Apparent place of a planet", "statement": "elliptic.Position returns the right ascension (in [0, 2pi)) and declination of the planet where the light left it, as seen from the Earth of the date: the light time is that of the geometric distance; the direction is moved by the aberration of the Earth's velocity to first order, by the FK5 correction (at most .15 arc seconds), by nutation, and turned to the true equator of the date.", "quantifier": "every date and every pair of VSOP87 tables, except a planet seen exactly at a pole of the ecliptic", "why_tests_cant": "a swapped or dropped correction changes the place by arc seconds, less than a rough test tolerance; no finite set of dates covers the tables", "anchors": ["v3/elliptic/elliptic.go#Position"]}
{"id": "C94", "title": "Rising, transit and setting of a planet", "statement": "rise.ApproxPlanet gives for a date of the Gregorian calendar the times at which the planet, kept at its apparent place of 0h, culminates and crosses the altitude of -34 minutes of arc, within the day, or an error exactly if it never reaches that altitude; rise.Planet never panics, has the same error, and otherwise applies one step of correction with the parabolas through the three apparent places around the date and delta-T. For a planet moving at most A in right ascension and D in declination from day to day the corrected transit differs from the approximate one, up to whole days, by at most 0.0173 + 2.1 A radians of rotation, and the hour angle and altitude left at the corrected times are of second order in these quantities, as for rise.Times.", "quantifier": "every valid Gregorian date, every observer between the poles, every pair of VSOP87 tables", "why_tests_cant": "circumpolar cases and wraps of the day depend on all inputs together", "anchors": ["v3/rise/rise.go#ApproxPlanet", "v3/rise/rise.go#Planet"]}
{"id": "C95", "title": "Lunar events agree with the mean motions", "statement": "The mean phases, apsides, node passages and greatest declinations found by moonphase, apsis, moonnode and moonmaxdec fall at the instants where the mean elongation, anomaly, distance from the node and longitude that moonposition uses have the defining values, and the arguments of their periodic terms (also in eclipse) are the mean arguments of those instants, to a few ten-thousandths of a degree (hundredths for moonmaxdec) for two thousand years around 2000.", "quantifier": "every year from 0 to 4000", "why_tests_cant": "five independent sets of polynomials, each in its own count of revolutions: one wrong digit shifts the events slowly over centuries", "anchors": ["v3/moonphase/moonphase.go#MeanNew", "v3/moonphase/moonphase.go#MeanFirst", "v3/moonphase/moonphase.go#MeanFull", "v3/moonphase/moonphase.go#MeanLast", "v3/apsis/apsis.go#MeanPerigee", "v3/apsis/apsis.go#MeanApogee", "v3/moonnode/moonnode.go#Ascending", "v3/moonnode/moonnode.go#Descending", "v3/moonmaxdec/moonmaxdec.go#North", "v3/moonmaxdec/moonmaxdec.go#South", "v3/eclipse/eclipse.go#Solar", "v3/eclipse/eclipse.go#Lunar", "v3/moonposition/moonposition.go#Position"]}
{"id": "C96", "title": "Planetary events agree with the mean elements", "statement": "The mean conjunctions and oppositions of planetary and the perihelia and aphelia of perihelion fall at the instants where the mean elements of planetelements have the defining configuration: planet and Earth in one direction or in opposite ones from the Sun, mean longitude at the perihelion or opposite; to better than .09 degrees for two thousand years around 2000.", "quantifier": "every year from 0 to 4000, every planet", "why_tests_cant": "the agreement of two independent tables over a continuum of dates; a wrong digit in a period shows only centuries away", "anchors": ["v3/planetary/planetary.go#MercuryInfConj", "v3/planetary/planetary.go#MercurySupConj", "v3/planetary/planetary.go#VenusInfConj", "v3/planetary/planetary.go#MarsOpp", "v3/planetary/planetary.go#JupiterOpp", "v3/planetary/planetary.go#SaturnOpp", "v3/planetary/planetary.go#SaturnConj", "v3/planetary/planetary.go#UranusOpp", "v3/planetary/planetary.go#NeptuneOpp", "v3/perihelion/perihelion.go#Perihelion", "v3/perihelion/perihelion.go#Aphelion", "v3/planetelements/planetelements.go#Mean"]}
{"id": "C97", "title": "The two expressions for aberration agree", "statement": "apparent.AberrationRonVondrak displaces a star by the part, perpendicular to it, of the velocity of the Earth in its table; from 1900 to 2100 that velocity, turned to the equinox of date, is within .08 arc seconds of aberration of the velocity in the elliptic orbit that Aberration and EclipticAberration use, so all three functions give the same displacement of every star to .08 arc seconds; none displaces a star by more than 20.85 arc seconds.", "quantifier": "every star away from the poles and every date from 1900 to 2100", "why_tests_cant": "the agreement of a table of 36 terms with a two-body formula for every direction and date; a wrong sign in a small term is below the tolerance of a single example", "anchors": ["v3/apparent/apparent.go#AberrationRonVondrak", "v3/apparent/apparent.go#Aberration", "v3/apparent/apparent.go#EclipticAberration"]}
{"id": "C98", "title": "The apparent place is a place near the mean place", "statement": "apparent.Position returns a right ascension in [0, 2pi) and a declination in [-pi/2, pi/2], displaced by no more than 50.4 arc seconds from the mean place of date.", "quantifier": "every star, proper motion and pair of epochs, the second from 1900 to 2100", "why_tests_cant": "the additive corrections fail only next to the poles, where no example lies", "anchors": ["v3/apparent/apparent.go#Position"]}
{"id": "C99", "title": "Precession can be undone and its two forms agree", "statement": "Precessing an equatorial position from any epoch to any other and back gives exactly the position one started from; in ecliptic coordinates the way back misses by at most .04 arc seconds between the years 0 and 4000. From J2000 it makes no difference whether one precesses equatorially and then converts to the ecliptic of date or converts first and precesses eclipticly: the two directions differ by at most .0002 arc seconds from 1900 to 2100 and .26 arc seconds from 1000 to 3000.", "quantifier": "every position, every pair of epochs (in the stated ranges for the bounds)", "why_tests_cant": "two independent sets of cubic polynomials and rotations, to be compared for every direction and every date; a wrong digit in a quadratic term is invisible near the one epoch of an example", "anchors": ["v3/precess/precess.go#NewPrecessor", "v3/precess/precess.go#Precess", "v3/precess/precess.go#NewEclipticPrecessor", "v3/nutation/nutation.go#MeanObliquity", "v3/coord/coord.go#EqToEcl"]}
{"id": "C100", "title": "The seasons fall where the Sun's longitude says", "statement": "At the instants that solstice.March, June, September and December give, the apparent longitude of the Sun computed by solar.ApparentLongitude is 0, 90, 180 and 270 degrees, to .0155 degrees for the years 1000 to 3000 and .022 degrees for the years -1000 to 999.", "quantifier": "every year from -1000 to 3000, all four seasons", "why_tests_cant": "a table of polynomials and 24 periodic terms against an independent theory of the Sun, for four thousand years; each example checks one instant", "anchors": ["v3/solstice/solstice.go#March", "v3/solstice/solstice.go#June", "v3/solstice/solstice.go#September", "v3/solstice/solstice.go#December", "v3/solar/solar.go#ApparentLongitude"]}
{"id": "C101", "title": "Sidereal time and the equation of time tell the same solar time", "statement": "The hour angle of the apparent Sun at Greenwich, sidereal.Apparent less the right ascension of solar.ApparentEquatorialVSOP87, is the time of day less twelve hours plus eqtime.E, to .07 seconds from 1900 to 2100 and 2.7 seconds from 1000 to 3000, the same argument being used for universal and dynamical time.", "quantifier": "every Julian day from -1/2 on within the stated years, every table of the Earth's motion", "why_tests_cant": "two independent polynomials and one correction for nutation that must cancel at every instant of every day", "anchors": ["v3/eqtime/eqtime.go#E", "v3/sidereal/sidereal.go#Apparent", "v3/solar/solar.go#ApparentEquatorialVSOP87", "v3/nutation/nutation.go#NutationInRA"]}
{"id": "C102", "title": "Smart's formula follows the Sun", "statement": "eqtime.ESmart is the mean longitude less the right ascension of solar.TrueEquatorial, up to whole turns, to 5 seconds of time from the year 1000 to 3000.", "quantifier": "every date from 1000 to 3000", "why_tests_cant": "the truncation error of a double series for every date; a wrong sign of a product term stays within the digits of an example near its zero", "anchors": ["v3/eqtime/eqtime.go#ESmart", "v3/solar/solar.go#TrueEquatorial"]}
{"id": "C103", "title": "Bisection ends at a sign change in floating point", "statement": "In float64 arithmetic iterate.BinaryRoot, for every function, including one that returns NaN, returns a number of the bracket; if the function has different signs (sign bits) at the two ends, then it is zero at the result, or its sign is different at some number of the bracket closer to the result than the width of the bracket plus its largest number, both divided by 2^52, plus 2^-1073.", "quantifier": "every function float64 to float64 and every bracket of finite numbers up to 2^1022, in IEEE double precision with round to nearest even", "why_tests_cant": "rounding of the midpoint for all pairs of ends; every function", "anchors": ["v3/iterate/iterate.go#BinaryRoot"]}
{"id": "C104", "title": "Rounding error of Horner's rule", "statement": "In float64 arithmetic base.Horner returns the value of the polynomial up to an error of n/2^51 times the value of the polynomial with the absolute values of the coefficients at the absolute value of the argument, plus a multiple of 2^-1073 for underflow, whenever the result is finite.", "quantifier": "every argument and every list of up to a million coefficients, in IEEE double precision", "why_tests_cant": "the rounding errors of every length of list and every argument", "anchors": ["v3/base/math.go#Horner"]}
{"id": "C105", "title": "Interpolation in three rows, in floating point", "statement": "In float64 arithmetic Len3.InterpolateX is within 33 units of rounding of the largest row of the parabola through the rows, and InterpolateN within 27; InterpolateXStrict accepts an argument exactly if it is between the first and the last abscissa.", "quantifier": "every table and argument; abscissae on a common grid of binary fractions for InterpolateX; IEEE double precision", "why_tests_cant": "rounding for every table and argument; acceptance at the ends depends on the last bit of three roundings", "anchors": ["v3/interp/interp.go#NewLen3", "v3/interp/interp.go#InterpolateX", "v3/interp/interp.go#InterpolateN", "v3/interp/interp.go#InterpolateXStrict"]}
{"id": "C106", "title": "Epochs in floating point", "statement": "In float64 arithmetic, for years up to 10000 in magnitude, JulianYearToJDE and BesselianYearToJDE are within 3e-9 day and the conversions back within 1.5e-11 year of the definition with exact arithmetic; converting forth and back changes the year by at most 2.4e-11; all four keep the order of their arguments; J2000Century has a relative error of at most 3/2^53.", "quantifier": "every float64 in the stated ranges", "why_tests_cant": "rounding for every number; monotonicity ranges over all pairs of neighbours", "anchors": ["v3/base/julian.go#JulianYearToJDE", "v3/base/julian.go#JDEToJulianYear", "v3/base/julian.go#BesselianYearToJDE", "v3/base/julian.go#JDEToBesselianYear", "v3/base/julian.go#J2000Century"]}
{"id": "C107", "title": "Dates and times in double precision", "statement": "In IEEE double precision, for every float64 Julian Day of the years 1029 to 6767: JDToCalendar returns the exact civil date and day fraction, and converting them back with CalendarGregorianToJD or CalendarJulianToJD returns the same number; DayOfWeek is right; JDToTime returns the nanosecond the number denotes or the next, and TimeToJD of that time returns the same number. For every time.Time of the years 1030 to 6766, TimeToJD is within 20.117 microseconds and JDToTime(TimeToJD(t)) within 20117 ns of t. (The ten days of C04 excepted.)", "quantifier": "every float64 from 2097152 to 4192776, every UTC time with nanoseconds of the years 1030 to 6766", "why_tests_cant": "there are 4.5 * 10^15 such numbers and 10^20 such times; rounding errors depend on every bit", "anchors": ["v3/julian/julian.go#JDToCalendar", "v3/julian/julian.go#JDToTime", "v3/julian/julian.go#TimeToJD", "v3/julian/julian.go#CalendarGregorianToJD", "v3/julian/julian.go#CalendarJulianToJD", "v3/julian/julian.go#DayOfWeek"]}
{"id": "C108", "title": "Length of an ellipse in double precision", "statement": "In IEEE double precision, elliptic.Length4(a, e) returns exactly when a is finite and not zero and e is a number from -1 to 1, and then within 131072 rounds of its loop; for every other argument (e above 1, NaN, infinities, a = 0) it never returns. For 2^-900 <= a <= 2^1000 and 0 <= e < 1 a result reached after n rounds differs from the length L of the ellipse by at most (6n + 26 + 4.1/sqrt(1-e^2)) 2^-53 L, and never by more than 5e-8 L; for e <= 0.91 it is there within 15 rounds, with an error of at most 1.4e-14 L.", "quantifier": "every pair of float64 arguments", "why_tests_cant": "the loop ends when a sum stops changing, which depends on rounding; no test can try every pair of doubles, or see that a call never returns", "anchors": ["v3/elliptic/elliptic.go#Length4"]}
{"id": "C109", "title": "Radius of the Earth and geocentric latitude", "statement": "For every geographic latitude phi, let rho and psi be the distance and the latitude, seen from the centre of the ellipsoid globe.Earth76, of the point of its surface with that latitude. GeocentricLatitudeDifference(phi) is phi - psi within 0.02 arc seconds, Rho(phi) is rho in equatorial radii within 5e-8, and ParallaxConstants at sea level gives rho sin psi and rho cos psi exactly.", "quantifier": "every latitude", "why_tests_cant": "the functions are truncated series with rounded coefficients; the source says their ellipsoid and accuracy are unknown", "anchors": ["v3/globe/globe.go#Rho", "v3/globe/globe.go#GeocentricLatitudeDifference", "v3/globe/globe.go#Ellipsoid.ParallaxConstants"]}
{"id": "C110", "title": "Minimum separation of moving objects", "statement": "angle.MinSep and angle.MinSepRect report an error exactly for slices that do not have three elements (MinSep also for an empty interval), and otherwise return the least separation of the two objects: MinSep the minimum, inside the table, of the parabola through the three separations; MinSepRect the least distance of the path through the three rows in a plane whose distances are the separations up to the cube of the differences of the coordinates.", "quantifier": "every table of three positions of two objects", "why_tests_cant": "the loop of MinSepRect converges or not depending on the motion; minimality compares with every instant of the interval", "anchors": ["v3/angle/angle.go#MinSep", "v3/angle/angle.go#MinSepRect"]}
{"id": "C111", "title": "Reduction to the FK5 system is a rotation", "statement": "planetposition.ToFK5 moves every direction by the same small rotation, fixed in the axes of J2000: the changes of longitude and latitude are exactly the first-order changes of that rotation, the returned direction is the rotated one up to 4e-13 over the square of the cosine of the latitude, no direction moves by more than 0.106 arc seconds, and separations of places are kept.", "quantifier": "every longitude, latitude off the poles and date", "why_tests_cant": "a wrong sign in one of the harmonics is below the precision of a test case at low latitude; that all directions move by one rotation compares every pair of directions", "anchors": ["v3/planetposition/planetposition.go#ToFK5"]}
{"id": "C112", "title": "Parallax of the Moon at perigee and apogee", "statement": "For every year from 0 to 4000, apsis.PerigeeParallax lies between 3547.3 and 3697.2 arc seconds and apsis.ApogeeParallax between 3232.9 and 3257.6, so that moonposition.Parallax gives them for distances of 355800 to 370950 km and of 403800 to 407000 km. Perigees within 5 degrees of elongation of new or full Moon are the near ones (parallax at least 3673) and those that close to the quarters the far ones (at most 3573); apogees near new or full Moon are the far ones (at most 3239.5), those near the quarters the near ones (at least 3251).", "quantifier": "every decimal year from 0 to 4000", "why_tests_cant": "a test compares one or two apsides; a wrong term of the long series shows only at some elongations and anomalies", "anchors": ["v3/apsis/apsis.go#PerigeeParallax", "v3/apsis/apsis.go#ApogeeParallax"]}
{"id": "C113", "title": "The two apparent positions are the same place", "statement": "For a star given for J2000 with its proper motion and every date from 1900 to 2100, apparent.Position and apparent.PositionRonVondrak return directions that differ by at most 0.084 arc seconds plus 0.017 arc seconds over the square of the cosine of the declination, although one corrects the mean place of date and the other the place of J2000 before precessing; the right ascension is in [0, 2pi).", "quantifier": "every star off the poles, proper motion and date from 1900 to 2100", "why_tests_cant": "tests compare one star; a correction applied in the wrong frame or twice shows only for other places and dates", "anchors": ["v3/apparent/apparent.go#Position", "v3/apparent/apparent.go#PositionRonVondrak"]}
{"id": "C114", "title": "Standard altitudes of rise", "statement": "The standard altitudes of package rise are those of the centre of the body when its upper limb, raised by refraction, is seen on the horizon: rise.Stdh0Lunar of moonposition.Parallax is parallax minus semidiameter minus 34 minutes of arc for every distance of the Moon, to 0.13 arc seconds; Stdh0LunarMean is within 206 arc seconds of it at every date within twenty centuries of 2000; Stdh0Solar is within 21 arc seconds of minus the semidiameter of the Sun at its distance of the date and 34 minutes of arc; Stdh0Stellar is within a minute of arc of minus the refraction that refraction.Bennett gives on the horizon.", "quantifier": "every distance of the Moon, every date", "why_tests_cant": "constants of four packages have to fit together for every distance and date", "anchors": ["v3/rise/rise.go#Stdh0Stellar", "v3/rise/rise.go#Stdh0Solar", "v3/rise/rise.go#Stdh0LunarMean", "v3/rise/rise.go#Stdh0Lunar"]}
{"id": "C115", "title": "Semidiameter of an asteroid", "statement": "semidiameter.Asteroid returns, as documented, the semidiameter of a sphere of the given diameter in km at the given distance in AU.", "quantifier": "every diameter and distance", "why_tests_cant": "the one test repeats the formula; that the result is the angle subtended by the radius is a statement about all diameters and distances", "anchors": ["v3/semidiameter/semidiameter.go#Asteroid"]}
{"id": "C116", "title": "Longitude of the Sun referred to J2000", "statement": "For every date from 1900 to 2100 solar.True2000 returns the longitude of True referred to the equinox of J2000: precessed to the date by precess.EclipticPosition's precession it gives the longitude of True to 1.3 arc seconds, and a latitude below 47.1 arc seconds; the anomaly is unchanged.", "quantifier": "every T with |T| <= 1", "why_tests_cant": "solar.True2000 has no test; agreement with the precession package must hold for every date", "anchors": ["v3/solar/solar.go#True2000"]}
{"id": "C117", "title": "jm.MMonth.String names the twelve months, but not every month that JulianToMoslem returns", "statement": "MMonth(m).String() returns a name exactly for m from 1 to 12, the names being those of the calendar in order and all different, and panics for every other int. Every month returned by jm.JulianToMoslem for a Julian date can be named.", "quantifier": "Every int64 month number; every Julian date of the years 623 to 10^15, in float64 arithmetic.", "why_tests_cant": "The conversion returns the months 0 and 13 on a few days of some years only (1844 January 1, 1877 December 25); the tests print the month of one date.", "anchors": ["v3/jm/jm.go#MMonth.String", "v3/jm/jm.go#JulianToMoslem"]}
{"id": "C118", "title": "globe.Ellipsoid.Distance is exact on the equator and accurate to the square of the flattening on a meridian", "statement": "Between places of the equator less than half a turn apart, Ellipsoid.Distance is the radius times the difference of longitudes; between places of one meridian it differs from the length of the meridian ellipse by at most 2 Fl^2 of the distance; and on Earth76, for any two places neither equal nor opposite, it is within 0.75 per cent of ApproxLinearDistance of the angle whose cosine is ApproxAngularDistance.", "quantifier": "every pair of longitudes, every pair of latitudes, every flattening up to 1/100, every pair of places; exact real arithmetic", "why_tests_cant": "A wrong sign or a swapped factor in the correction term changes short test distances by less than their tolerance; the claim is a bound for all pairs.", "anchors": ["v3/globe/globe.go#Ellipsoid.Distance", "v3/globe/globe.go#ApproxAngularDistance", "v3/globe/globe.go#ApproxLinearDistance", "v3/globe/globe.go#Ellipsoid.RadiusOfCurvature"]}
{"id": "C119", "title": "A near-parabolic position obeys Kepler's second law", "statement": "Whenever nearparabolic's AnomalyDistance returns without error for a perihelion distance q > 0 and an eccentricity from 1/2 to 2, the returned true anomaly lies on the orbit, the returned distance is the conic's distance there, and the time the orbit needs from perihelion to that anomaly by Kepler's second law differs from the requested time by at most 4e-7 times q r over the areal rate, for elliptic, parabolic and hyperbolic orbits alike, however the series and both iterations stopped.", "quantifier": "Every perihelion distance, eccentricity from 1/2 to 2, time, and every way the three nested loops end with a value.", "why_tests_cant": "Tests compare a handful of tabulated orbits; a wrong series coefficient or a loop that stops on a diverging series shows only for combinations of eccentricity and time the table does not contain.", "anchors": ["v3/nearparabolic/nearparabolic.go#Elements.AnomalyDistance"]}
{"id": "C120", "title": "The orbit packages obey one law of areas", "statement": "Kepler's second law with the Gaussian constant fixes the time from perihelion to each true anomaly. kepler.True and kepler.Radius give the anomaly and distance whose passage time is the one in Kepler's equation, exactly; an anomaly from Kepler2b is passed within e 10^(-2 places) radians of mean motion of the requested time; parabolic.AnomalyDistance is exact; the node functions return perihelion time plus passage time (elliptic exactly, parabolic to 2 parts in 10^8) and the conic's distance; and a value of nearparabolic for an ellipse satisfies the Kepler equation that packages kepler and elliptic solve, to 4e-7.", "quantifier": "Every semimajor axis or perihelion distance > 0, eccentricity in [0, 1) (1/2 to 1 for nearparabolic against kepler), time, eccentric anomaly between -pi and pi and argument of perihelion with an anomaly between -pi and pi.", "why_tests_cant": "Each package is tested alone on one worked example; that four different parametrisations (eccentric anomaly, Barker's equation, the tan(v/2) series and the node formulas) describe the same motion is a statement about all orbits and times.", "anchors": ["v3/kepler/kepler.go#True", "v3/kepler/kepler.go#Radius", "v3/kepler/kepler.go#Kepler2b", "v3/parabolic/parabolic.go#Elements.AnomalyDistance", "v3/node/node.go#EllipticAscending", "v3/node/node.go#EllipticDescending", "v3/node/node.go#ParabolicAscending", "v3/node/node.go#ParabolicDescending", "v3/nearparabolic/nearparabolic.go#Elements.AnomalyDistance"]}
{"id": "C121", "title": "Near-parabolic positions are found near the parabola", "statement": "nearparabolic's AnomalyDistance returns a value, never the convergence error, for every perihelion distance q > 0, eccentricity from 1/2 to 2 and time whose Barker solution s0 (s0 + s0^3/3 = K sqrt((1+e)/q) t / 2q) is at most 44 in absolute value with |1-e|/(1+e) s0^2 at most 1/27; by C119 that value obeys Kepler's second law.", "quantifier": "Every perihelion distance, eccentricity and time in the stated region (true anomalies up to 177 degrees as the orbit approaches the parabola).", "why_tests_cant": "Convergence of three nested loops with absolute stopping thresholds is a statement about a two-parameter continuum; the tests try about a dozen orbits.", "anchors": ["v3/nearparabolic/nearparabolic.go#Elements.AnomalyDistance"]}
{"id": "C122", "title": "What is left after the one correction of rise.Times", "statement": "For a body that moves at most A in right ascension and D in declination from one row of the tables to the next, the transit returned by rise.Times differs from that of ApproxTimes by at most 0.0173 + 2.1 A radians of rotation of the sky, up to whole days, and if no day is slipped the body's hour angle at the returned time, on the parabola through the table and with the sidereal clock, is at most (0.00275 + A/2)(0.0173 + 2.1 A) from the meridian. With B = 0.0173 + 2.1 (A + D) and g the rate of change of the altitude with the hour angle, the times of rising and setting are moved by at most 1.04 B/g, and the sine of the altitude at the returned time differs from that of the standard altitude by at most 0.55 (B/g)^2 + 0.04 B + 1.04 (0.00275 + (A+D)/2) B/g.", "quantifier": "every observer between the poles, every sidereal time, every pair of tables of three rows with bounded motion, every delta-T of at most an hour, every standard altitude of at most 0.05 radians (for rising and setting, B at most 0.1 and at most 0.9 g)", "why_tests_cant": "the error of a single step of correction is of second order only if the correction has the right rate, sign and interpolated place for all inputs; tests compare a few cases to minutes", "anchors": ["v3/rise/rise.go#Times"]}
{"id": "C123", "title": "The body is up exactly between the times of rising and setting", "statement": "The times of rise.ApproxTimes are symmetric about the transit, up to whole days: rising as long before it as setting after it, at most half a day. In the day around the transit the body, kept at its place, is above the standard altitude exactly between rising and setting, below it outside, and nowhere higher than at the transit. When ApproxTimes reports circumpolar, the body is always above or always below the standard altitude.", "quantifier": "every observer between the poles, every standard altitude, sidereal time and direction not at a pole", "why_tests_cant": "the claim is about every instant between the three returned times, and about swapped or half-turn-shifted results for all latitudes and both signs of the declination", "anchors": ["v3/rise/rise.go#ApproxTimes"]}
{"id": "C124", "title": "Rising times depend only on the sky relative to the meridian", "statement": "Moving the sidereal time by x, the right ascension by y and the observer by z to the west moves the three times of rise.ApproxTimes by the time of rotation through y + z less x, up to whole days, and never changes whether there is an error. If the moves compensate up to whole turns, ApproxTimes returns the same times, and rise.Times returns the same times of rising and setting and the same transit up to whole days.", "quantifier": "every observer, sidereal time, direction, table of three rows, and every triple of shifts", "why_tests_cant": "a metamorphic property over all shifts: conventions of sign (longitude positive west) and normalisation of angles must agree in six places of the code", "anchors": ["v3/rise/rise.go#ApproxTimes", "v3/rise/rise.go#Times"]}
