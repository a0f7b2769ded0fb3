{
 "claims": [
  {
   "property": "C01",
   "status": "proved",
   "theorems": [
    "C01_FloorDiv_floor",
    "C01_FloorDiv64_floor",
    "C01_FloorDiv_panics",
    "C01_FloorDiv_overflow"
   ],
   "note": "All sign combinations, panic on zero, the single overflow stated. Closed under the global context."
  },
  {
   "property": "C02",
   "status": "proved",
   "theorems": [
    "C02_jdn_is_the_day_count",
    "C02_gregorian_day_count",
    "C02_gregorian_anchor",
    "C02_gregorian_fraction",
    "C02_C03_binary64_exact"
   ],
   "note": "Exact semantics for |y| <= 10^14; binary64 exactness for |y| <= 70000 and day fractions that are multiples of 2^-28."
  },
  {
   "property": "C03",
   "status": "proved",
   "theorems": [
    "C02_C03_binary64_exact",
    "C03_julian_day_count",
    "C03_julian_anchor",
    "C03_julian_fraction"
   ],
   "note": "As C02."
  },
  {
   "property": "C04",
   "status": "partial",
   "theorems": [
    "C04_JDToCalendar_partial",
    "C04_civil_roundtrip_partial",
    "C04_roundtrip_binary64_partial",
    "C04_JDToCalendar_refuted",
    "C04_JDToCalendar_window",
    "C04_binary64_refuted"
   ],
   "note": "False of the code: constant 2299151 instead of 2299161 in JDToCalendar; the ten days 1582 Sep 25 .. Oct 4 come back with Gregorian names (C04_JDToCalendar_refuted, C04_binary64_refuted). Proved on every other day, in exact and binary64 semantics."
  },
  {
   "property": "C05",
   "status": "proved",
   "theorems": [
    "C05_leap_years",
    "C05_day_of_year_ordinal",
    "C05_inverse_left",
    "C05_inverse_right"
   ],
   "note": "Both calendars, all years."
  },
  {
   "property": "C06",
   "status": "partial",
   "theorems": [
    "C06_DayOfWeek_partial",
    "C06_DayOfWeek_advances_partial",
    "C06_DayOfWeek_date_partial",
    "C06_DayOfWeek_anchor",
    "C06_DayOfWeek_binary64_partial",
    "C06_DayOfWeek_refuted"
   ],
   "note": "False for jd < -1.5 (negative result, C06_DayOfWeek_refuted); proved for every jd >= -1/2, also in binary64 on the 2^-28 grid."
  },
  {
   "property": "C07",
   "status": "proved",
   "theorems": [
    "C07_TimeToJD",
    "C07_JDToTime",
    "C07_roundtrip"
   ],
   "note": "Exact semantics, to the nanosecond."
  },
  {
   "property": "C08",
   "status": "proved",
   "theorems": [
    "C08_gregorian_easter",
    "C08_C09_easter_unique"
   ],
   "note": "Every year 0 <= y < 2^63; the ecclesiastical rules (shifted epact, paschal moon, following Sunday) are the specification and determine the date uniquely. Closed under the global context."
  },
  {
   "property": "C09",
   "status": "proved",
   "theorems": [
    "C08_C09_easter_unique",
    "C09_julian_easter"
   ],
   "note": "As C08, Julian calendar."
  },
  {
   "property": "C10",
   "status": "proved",
   "theorems": [
    "C10_gregorian_to_julian",
    "C10_julian_to_gregorian",
    "C10_inverse_gregorian",
    "C10_inverse_julian",
    "C10_before_reform"
   ],
   "note": "All valid dates with |year| <= 1.9*10^14."
  },
  {
   "property": "C11",
   "status": "partial",
   "theorems": [
    "C11_C13_closed_form",
    "C11_moslem_to_julian_partial",
    "C11_day_number_refuted"
   ],
   "note": "The day denoted is right for every date (C11_moslem_to_julian_partial), but the day number of the year can be 0: 1 Muharram 556 is reported as (1161, 0) (C11_day_number_refuted)."
  },
  {
   "property": "C12",
   "status": "partial",
   "theorems": [
    "C12_round_trip_refuted",
    "C12_month_13_refuted",
    "C12_julian_to_moslem_partial",
    "C12_julian_to_moslem_binary64_partial",
    "C12_code_year",
    "C12_year_622_refuted",
    "C12_moslem_day_unique"
   ],
   "note": "False of the code: it uses MoslemLeapYear of the Julian year number and takes 354-day years when it looks for January 1 (C12_round_trip_refuted, C12_month_13_refuted, C12_year_622_refuted). Proved: exactly which dates of all Julian years from 623 on are converted correctly, in exact and binary64 arithmetic; none of year 622 is."
  },
  {
   "property": "C13",
   "status": "proved",
   "theorems": [
    "C11_C13_closed_form",
    "C13_leap_years",
    "C13_eleven_in_thirty",
    "C13_periodic",
    "C13_year_length"
   ],
   "note": "All years."
  },
  {
   "property": "C14",
   "status": "partial",
   "theorems": [
    "C14_jewish_calendar_partial",
    "C14_valid_dates",
    "C14_year_lengths",
    "C14_elapsed_months",
    "C14_months_days_refuted",
    "C14_new_year_date_refuted",
    "C14_reform_refuted"
   ],
   "note": "Pesach, New Year and months proved for 0 <= y < 4*10^8 in exact semantics; the reported number of days belongs to the next Jewish year, so the pair months/days is illegal for y = 0 (C14_months_days_refuted); \"September -1\" for y = 18 (C14_new_year_date_refuted); ten days too many for y = 1582."
  },
  {
   "property": "C15",
   "status": "proved",
   "theorems": [
    "C15_Horner_poly",
    "C15_Horner_panics"
   ],
   "note": "Any number of coefficients."
  },
  {
   "property": "C16",
   "status": "proved",
   "theorems": [
    "C16_julian_years",
    "C16_besselian_years",
    "C16_epoch_anchors",
    "C16_J2000Century",
    "C16_Cmp_order",
    "C16_Cmp_float64"
   ],
   "note": "Exact semantics; Cmp also for finite binary64 values."
  },
  {
   "property": "C17",
   "status": "partial",
   "theorems": [
    "C17_BinaryRoot_root",
    "C17_BinaryRoot_root_at_lower_refuted"
   ],
   "note": "Proved: the returned point is within 2^-52 of the bracket length of a root of f, for continuous f with a sign change (exact arithmetic). False when the root is the lower bound itself and f(upper) > 0 (C17_BinaryRoot_root_at_lower_refuted)."
  },
  {
   "property": "C18",
   "status": "proved",
   "theorems": [
    "C18_DecimalPlaces_ok",
    "C18_DecimalPlaces_error",
    "C18_FullPrecision_ok",
    "C18_FullPrecision_error",
    "C18_DecimalPlaces_fixpoint",
    "C18_FullPrecision_zero_limit_refuted"
   ],
   "note": "Success and error cases for every function, bound and number of places (exact arithmetic). A limit of exactly 0 is never accepted by FullPrecision (C18_FullPrecision_zero_limit_refuted)."
  },
  {
   "property": "C19",
   "status": "proved",
   "theorems": [
    "C19_NewLen3_errors",
    "C19_Len3_reproduces_table",
    "C19_Len3_exact_for_quadratics",
    "C19_Len3_normalized_argument"
   ],
   "note": "Exact arithmetic; every table."
  },
  {
   "property": "C20",
   "status": "partial",
   "theorems": [
    "C20_Len3_strict_x",
    "C20_Len3_strict_n",
    "C20_Len5_strict_x_partial",
    "C20_Len5_strict_x_refuted"
   ],
   "note": "Len3 proved. Len5.InterpolateXStrict accepts only the middle half of its table (C20_Len5_strict_x_partial is an exact characterisation, C20_Len5_strict_x_refuted the contradiction with its documentation)."
  },
  {
   "property": "C21",
   "status": "proved",
   "theorems": [
    "C21_Len3_Extremum",
    "C21_Len3_Extremum_errors"
   ],
   "note": "Success and both errors, every table, exact arithmetic."
  },
  {
   "property": "C22",
   "status": "partial",
   "theorems": [
    "C22_Len3_Zero",
    "C22_Len5_Zero",
    "C22_Len3_Zero_middle_refuted",
    "C22_Len5_Zero_middle_refuted"
   ],
   "note": "Every returned value is in the table range and is a zero up to the convergence tolerance, in exact arithmetic with IEEE infinities and NaN. False when the middle table value is exactly zero: always an error (the _refuted theorems)."
  },
  {
   "property": "C23",
   "status": "proved",
   "theorems": [
    "C23_NewLen5_errors",
    "C23_Len5_reproduces_table",
    "C23_Len5_exact_for_quartics",
    "C23_Len5_normalized_argument"
   ],
   "note": "Exact arithmetic; every table."
  },
  {
   "property": "C24",
   "status": "partial",
   "theorems": [
    "C24_Len5_Extremum_partial",
    "C24_Len5_Extremum_refuted"
   ],
   "note": "False of the code: 3*(h+k) where the derivative has 3*(h+j) (C24_Len5_Extremum_refuted). C24_Len5_Extremum_partial gives the exact defect of the derivative."
  },
  {
   "property": "C25",
   "status": "proved",
   "theorems": [
    "C25_Len3ForInterpolateX",
    "C25_Len3ForInterpolateX_errors",
    "C25_table_abscissae_reproduce_values"
   ],
   "note": "Any table length below 2^62, exact arithmetic."
  },
  {
   "property": "C26",
   "status": "proved",
   "theorems": [
    "C26_Len4Half_exact_for_cubics",
    "C26_Len4Half_error"
   ],
   "note": "Exact arithmetic."
  },
  {
   "property": "C27",
   "status": "proved",
   "theorems": [
    "C27_Lagrange_through_points",
    "C27_Lagrange_exact",
    "C27_Lagrange_row_order"
   ],
   "note": "Any number of points, exact arithmetic."
  },
  {
   "property": "C28",
   "status": "proved",
   "theorems": [
    "C28_LagrangePoly_Horner",
    "C28_LagrangePoly_length"
   ],
   "note": "Any number of points, exact arithmetic."
  },
  {
   "property": "C29",
   "status": "proved",
   "theorems": [
    "C29_Linear_least_squares"
   ],
   "note": "Any data with two distinct abscissae; optimality and uniqueness, exact arithmetic."
  },
  {
   "property": "C30",
   "status": "proved",
   "theorems": [
    "C30_Quadratic_least_squares",
    "C30_Func3_least_squares",
    "C30_Func1_least_squares"
   ],
   "note": "Any data: three distinct abscissae for Quadratic, functions independent on the data for Func3, a nonvanishing value for Func1."
  },
  {
   "property": "C31",
   "status": "proved",
   "theorems": [
    "C31_correlation_range",
    "C31_linear_data",
    "C31_unit_correlation_is_linear",
    "C31_symmetric",
    "C31_rescaling"
   ],
   "note": "Exact arithmetic; also the converse (|r| = 1 only for linear data)."
  },
  {
   "property": "C32",
   "status": "partial",
   "theorems": [
    "C32_SepHav",
    "C32_SepPauwels",
    "C32_Sep_partial",
    "C32_Sep_wrap_refuted",
    "C32_Sep_symmetry_refuted",
    "C32_symmetric",
    "C32_full_turns"
   ],
   "note": "SepHav and SepPauwels proved for all directions. Sep proved above ten minutes of arc; below, it ignores the wrap at longitude 0 (C32_Sep_wrap_refuted) and is not symmetric (C32_Sep_symmetry_refuted)."
  },
  {
   "property": "C33",
   "status": "partial",
   "theorems": [
    "C33_RelativePosition_partial",
    "C33_RelativePosition_refuted",
    "C33_line_Angle",
    "C33_line_Error",
    "C33_line_AngleError",
    "C33_line_Time",
    "C33_line_Time_lengths"
   ],
   "note": "line.Angle, Error, AngleError and Time proved. RelativePosition is mirrored: it returns minus the position angle (C33_RelativePosition_partial, C33_RelativePosition_refuted)."
  },
  {
   "property": "C34",
   "status": "proved",
   "theorems": [
    "C34_smallest_circle",
    "C34_order_independent",
    "C34_at_least_each_separation",
    "C34_type"
   ],
   "note": "All triples; the smallest enclosing circle is the one of the planar triangle with the three separations as sides, as in the code."
  },
  {
   "property": "C35",
   "status": "partial",
   "theorems": [
    "C35_one_solution",
    "C35_error_bound",
    "C35_Kepler1",
    "C35_Kepler1_succeeds",
    "C35_Kepler2",
    "C35_Kepler2b",
    "C35_Kepler2a_partial",
    "C35_Kepler2a_949",
    "C35_Kepler2a_952",
    "C35_Kepler2a_sharp",
    "C35_Kepler2b_converges",
    "C35_Kepler2a_converges",
    "C35_Kepler2a_succeeds_84",
    "C35_Kepler2a_succeeds_94",
    "C35_Kepler2a_succeeds_952",
    "C35_Kepler2_succeeds_84",
    "C35_Kepler2b_succeeds_90",
    "C35_Kepler2a_succeeds",
    "C35_Kepler2_succeeds",
    "C35_Kepler2b_succeeds",
    "C35_Kepler2a_refuted"
   ],
   "note": "Kepler1, Kepler2 and Kepler2b proved for all inputs. Kepler2a proved whenever e/sqrt(1-e^2) <= pi - 10^-places (every e <= 0.949, or e <= 0.952 with 2 or more places) and false for every e with e/sqrt(1-e^2) >= pi, that is from 0.9529 on: a Newton step of half a turn is taken for convergence (C35_Kepler2a_sharp). Missing: the eccentricities between those two limits. Success: Kepler1 for e <= 0.63; Kepler2a for e <= 0.65, for e <= 0.84 with 2 or more places, 0.94 with 3, 0.952 with 10, and for every e below the limit with enough places; Kepler2 for e <= 0.65 with 8 or more places and 0.84 with 13; Kepler2b for e <= 0.4 with 4 or more places, 0.9 with 13, and for every e < 1 with enough places."
  },
  {
   "property": "C36",
   "status": "proved",
   "theorems": [
    "C36_Kepler3"
   ],
   "note": "Error at most pi/2^54, exact arithmetic."
  },
  {
   "property": "C37",
   "status": "proved",
   "theorems": [
    "C37_True_anomaly",
    "C37_Radius",
    "C37_ellipse"
   ],
   "note": "Every E other than an odd multiple of pi, where the tangent has its pole."
  },
  {
   "property": "C38",
   "status": "proved",
   "theorems": [
    "C38_parabolic",
    "C38_symmetric"
   ],
   "note": "Exact arithmetic."
  },
  {
   "property": "C39",
   "status": "proved",
   "theorems": [
    "C39_EqToEcl_rotation",
    "C39_EclToEq_rotation",
    "C39_inverse",
    "C39_inverse_ecliptic"
   ],
   "note": "All directions away from the poles; exact arithmetic."
  },
  {
   "property": "C40",
   "status": "proved",
   "theorems": [
    "C40_EqToHz_rotation",
    "C40_HzToEq_rotation",
    "C40_altitude",
    "C40_inverse",
    "C40_inverse_horizontal"
   ],
   "note": "All observers and directions away from the poles; exact arithmetic."
  },
  {
   "property": "C41",
   "status": "proved",
   "theorems": [
    "C41_EqToGal_rotation",
    "C41_GalToEq_rotation",
    "C41_inverse",
    "C41_inverse_galactic",
    "C41_isometry",
    "C41_pole"
   ],
   "note": "All directions away from the poles; exact arithmetic."
  },
  {
   "property": "C42",
   "status": "partial",
   "theorems": [
    "C42_specification",
    "C42_ParallaxConstants",
    "C42_RadiusAtLatitude",
    "C42_RadiusOfCurvature",
    "C42_OneDegree",
    "C42_axes",
    "C42_ApproxAngularDistance",
    "C42_Distance_symmetric",
    "C42_Distance_defined",
    "C42_Distance_sphere",
    "C42_Distance_equal_refuted",
    "C42_Distance_undefined"
   ],
   "note": "Everything proved except \"0 for equal points\", which is false: Distance of a place to itself (and to its antipode) is NaN (C42_Distance_equal_refuted)."
  },
  {
   "property": "C43",
   "status": "proved",
   "theorems": [
    "C43_Precess",
    "C43_EclPrecess",
    "C43_Precess_separation",
    "C43_EclPrecess_separation",
    "C43_branches",
    "C43_Precess_identity",
    "C43_EclPrecess_identity",
    "C43_angles",
    "C43_ecliptic_angles"
   ],
   "note": "Exact arithmetic. The result longitude of the ecliptic form is not normalised; it is in a range of 2 pi."
  },
  {
   "property": "C44",
   "status": "proved",
   "theorems": [
    "C44_Precess",
    "C44_ApproxPosition",
    "C44_Position",
    "C44_EclPrecess",
    "C44_EclipticPosition",
    "C44_ProperMotion3D",
    "C44_ReduceElements",
    "C44_ReduceB1950ToJ2000",
    "C44_ReduceB1950FK4ToJ2000FK5",
    "C44_apparentPosition",
    "C44_positionRonVondrak"
   ],
   "note": "All functions documented to accept the same struct twice, with the order of field reads and writes of the code; for apparent.Position any correction functions."
  },
  {
   "property": "C45",
   "status": "partial",
   "theorems": [
    "C45_Mean0UT",
    "C45_Mean",
    "C45_Mean0UT_constant",
    "C45_Mean_no_jump",
    "C45_Apparent",
    "C45_Apparent0UT_value",
    "C45_Apparent0UT_refuted",
    "C45_Mean0UT_negative_refuted"
   ],
   "note": "Mean, Mean0UT and Apparent proved for jd >= -0.5, nutation a parameter. False: Apparent0UT varies within the day and uses the nutation of noon (C45_Apparent0UT_refuted, exact value in C45_Apparent0UT_value); Mean0UT before JD -0.5 (C45_Mean0UT_negative_refuted)."
  },
  {
   "property": "C46",
   "status": "proved",
   "theorems": [
    "C46_circumpolar",
    "C46_times"
   ],
   "note": "All observers off the poles and all declinations off the poles; exact arithmetic."
  },
  {
   "property": "C47",
   "status": "partial",
   "theorems": [
    "C47_three_rows",
    "C47_transit_correction",
    "C47_correction_fixed",
    "C47_correction_direction",
    "C47_range_refuted",
    "C47_wrap_refuted",
    "C47_two_rows_refuted",
    "C47_short_tables",
    "C47_long_tables"
   ],
   "note": "Error exactly when circumpolar, correction formulas and their direction proved. False: the range (C47_range_refuted), right ascension tables crossing 0h (C47_wrap_refuted), errors for tables of other lengths (C47_two_rows_refuted, C47_short_tables, C47_long_tables: silent padding or panic)."
  },
  {
   "property": "C48",
   "status": "partial",
   "theorems": [
    "C48_mean_phases",
    "C48_mean_apsides",
    "C48_eclipse_index",
    "C48_nodes",
    "C48_declinations",
    "C48_planetary",
    "C48_planetary_no_panic",
    "C48_perihelion_index",
    "C48_aphelion_index",
    "C48_phase_date",
    "C48_perigee_date",
    "C48_apogee_date",
    "C48_node_date",
    "C48_nearest_date_refuted",
    "C48_nearest_declination_refuted"
   ],
   "note": "Proved: the index used is the nearest of its class to Meeus' linear formula for the year, the date is that of the index, and lies within 16 to 21 days of the year's date. False that the event itself is the nearest to the date (C48_nearest_date_refuted, C48_nearest_declination_refuted)."
  },
  {
   "property": "C49",
   "status": "proved",
   "theorems": [
    "C49_lunar",
    "C49_lunar_time",
    "C49_lunar_type",
    "C49_lunar_type_unique",
    "C49_elements"
   ],
   "note": "Exact arithmetic; for years 1001 to 2999. The type includes the lunations rejected early by the argument of latitude. lunarMotion is the hourly motion of the code."
  },
  {
   "property": "C50",
   "status": "proved",
   "theorems": [
    "C50_solar",
    "C50_solar_time",
    "C50_solar_type",
    "C50_solar_type_unique",
    "C50_early_rejection_sound"
   ],
   "note": "Exact arithmetic; for years 1001 to 2999. The magnitude of a partial eclipse is non-negative (zero exactly at the limit). The umbral cone is looked for only when |gamma| < 1.026, as in the book."
  },
  {
   "property": "C51",
   "status": "partial",
   "theorems": [
    "C51_illuminated_range",
    "C51_phase_angle_law_of_cosines",
    "C51_fraction_is_illuminated",
    "C51_phase_angle",
    "C51_phase_angle2",
    "C51_phase_angle3",
    "C51_angle_unique",
    "C51_moon_equatorial",
    "C51_moon_ecliptical",
    "C51_moon_equatorial2",
    "C51_moon_ecliptical2",
    "C51_limb",
    "C51_venus_partial",
    "C51_venus_refuted",
    "C51_moon_date_refuted"
   ],
   "note": "Everything proved except two false parts: illum.FractionVenus exceeds 1 by up to 5e-7 (C51_venus_refuted, bound in C51_venus_partial) and moonillum.PhaseAngle3 for a date is negative in the second half of each lunation (C51_moon_date_refuted). The phase angles are characterised as the angle of the triangle Sun, body, Earth."
  },
  {
   "property": "C52",
   "status": "partial",
   "theorems": [
    "C52_well_formed",
    "C52_no_crash_partial",
    "C52_zero_terms",
    "C52_terminates_refuted",
    "C52_missing_line",
    "C52_short_line",
    "C52_too_many_terms",
    "C52_high_power",
    "C52_no_panic_refuted"
   ],
   "note": "Every byte content; ParseFloat is a parameter (any partial function from texts to numbers). Well-formed files proved to yield exactly their terms; termination without panic proved for every content whose header lines are sound (C52_no_crash_partial). False in general: a declared count of 0 never ends (C52_terminates_refuted), a file that lost its last line panics (C52_no_panic_refuted); exact panic conditions in C52_missing_line, C52_short_line, C52_too_many_terms, C52_high_power."
  },
  {
   "property": "C53",
   "status": "partial",
   "theorems": [
    "C53_general_points",
    "C53_general_complete",
    "C53_shadow_unique",
    "C53_hours_once",
    "C53_general_center",
    "C53_hour_lines_meet",
    "C53_vertical",
    "C53_horizontal_partial",
    "C53_equatorial_north",
    "C53_equatorial_south",
    "C53_horizontal_infinite_refuted",
    "C53_equatorial_infinite_refuted",
    "C53_polar_night_refuted",
    "C53_general_points_everywhere",
    "C53_general_complete_everywhere",
    "C53_horizontal_points_everywhere",
    "C53_horizontal_complete_everywhere",
    "C53_equatorial_south_everywhere"
   ],
   "note": "Every latitude strictly between the poles: every returned point of General is the shadow of the stylus tip (S_sundial geometry) with the Sun in front of the dial and either up or in polar night (never rising that day), and all of these are returned; up to 66.56 degrees there is no polar night. No hour twice, centre and polar stylus, hour lines concurrent; Vertical and Horizontal are the special cases of General, Equatorial its faces; Horizontal is complete and right except for polar-night points. Refuted: finiteness (equinox points of Horizontal at 6/18h and Equatorial north 6-18h are not finite) and Sun above the horizon in the polar night (Horizontal keeps such points); hence the equality with Horizontal is for |phi| <= 66.56 degrees only."
  },
  {
   "property": "C54",
   "status": "proved",
   "theorems": [
    "C54_ratio_is_brightness_ratio",
    "C54_difference_of_ratio",
    "C54_ratio_of_difference",
    "C54_sum_adds_brightness",
    "C54_sum_two",
    "C54_sum_symmetric",
    "C54_sum_order",
    "C54_sum_groups",
    "C54_sum_brighter",
    "C54_sum_one",
    "C54_absolute_agree",
    "C54_absolute_at_10pc"
   ],
   "note": "Exact arithmetic with the real logarithm."
  },
  {
   "property": "C55",
   "status": "partial",
   "theorems": [
    "C55_hour_angle_form",
    "C55_topocentric_partial",
    "C55_topocentric_refuted",
    "C55_forms_agree",
    "C55_ecliptical",
    "C55_direction_unique",
    "C55_Topocentric2_first_order",
    "C55_Topocentric2_error",
    "C55_hypotheses"
   ],
   "note": "False near the pole: when the pole lies between the geocentric and the observed place, Topocentric returns the opposite direction (C55_topocentric_refuted). Otherwise Topocentric, Topocentric3 and TopocentricEcliptical are the exact direction from the observer. Topocentric2, documented as non-rigorous, is the first-order displacement, with an error of at most 3 p^2 / cos^2 of the declination. Sidereal time is an argument of the model."
  },
  {
   "property": "C56",
   "status": "proved",
   "theorems": [
    "C56_search_result",
    "C56_no_panic",
    "C56_from_mean_event",
    "C56_neptune"
   ],
   "note": "The radius is an arbitrary function of time; exact arithmetic. Whether the search ends is C68."
  },
  {
   "property": "C57",
   "status": "partial",
   "theorems": [
    "C57_node_refuted",
    "C57_perigee_refuted",
    "C57_phase_angle_refuted",
    "C57_semidiameter_refuted",
    "C57_node_partial",
    "C57_perigee_partial",
    "C57_arguments_error",
    "C57_arguments_this_century_partial"
   ],
   "note": "False: the quotients are integer divisions (C57_*_refuted). Proved instead: what is computed, the exact error of every argument, and that it is below 1/60000 degree within a century of 2000."
  },
  {
   "property": "C58",
   "status": "partial",
   "theorems": [
    "C58_ReduceElements",
    "C58_ReduceB1950FK4ToJ2000FK5",
    "C58_ReduceElements_refuted",
    "C58_ReduceB1950_constants",
    "C58_ReduceB1950_range",
    "C58_ReduceB1950_pole_partial",
    "C58_ReduceB1950_perihelion",
    "C58_ReduceB1950_refuted",
    "C58_FK_angles"
   ],
   "note": "ReduceElements and the FK4 to FK5 reduction proved for every orbit whose new inclination is not 0 or pi. False: ReduceElements changes the perihelion direction for inclination 0 with equal epochs (C58_ReduceElements_refuted); ReduceB1950ToJ2000 returns direct orbits for retrograde ones (C58_ReduceB1950_refuted)."
  },
  {
   "property": "C59",
   "status": "proved",
   "theorems": [
    "C59_terminates",
    "C59_fuel_irrelevant",
    "C59_value",
    "C59_parabolic"
   ],
   "note": "Termination for every input (exact arithmetic), independence of the fuel, range of the result, agreement with package parabolic for e = 1."
  },
  {
   "property": "C60",
   "status": "partial",
   "theorems": [
    "C60_total",
    "C60_interpolates",
    "C60_reproduces_shifted",
    "C60_rows_partial",
    "C60_rows_refuted",
    "C60_year_polynomials",
    "C60_accuracy"
   ],
   "note": "Real-number model. Interp10A proved total (no panic, no out-of-table read) for every jde >= -1/2, and equal to the parabola through the three rows nearest to the year-with-fraction. The reproduction of rows at tabulated years (January 1) is refuted (C60_rows_refuted: day of year of January 1 is 1, not 0, so the answer is a day late) and replaced by the shifted exact statement (C60_reproduces_shifted) and a 0.02 s bound (C60_rows_partial). Year polynomials explicit; documented accuracies of the three date polynomials proved at every table row in range."
  },
  {
   "property": "C61",
   "status": "proved",
   "theorems": [
    "C61_EllipticAscending",
    "C61_EllipticDescending",
    "C61_ParabolicAscending",
    "C61_ParabolicDescending",
    "C61_binary_Position",
    "C61_binary_M",
    "C61_ApparentEccentricity",
    "C61_ApparentEccentricity_face_on"
   ],
   "note": "Exact arithmetic. The apparent eccentricity is the one of the projected ellipse."
  },
  {
   "property": "C62",
   "status": "partial",
   "theorems": [
    "C62_Velocity_decreasing",
    "C62_VPerihelion",
    "C62_VAphelion",
    "C62_circle",
    "C62_Length_bounds_partial",
    "C62_Length2_axis",
    "C62_Length1_refuted",
    "C62_length_exists",
    "C62_Length4_exact",
    "C62_Length1_Length2"
   ],
   "note": "Velocities, circles, the bounds pi(a+b) <= L <= 2 pi a for all three lengths (Length4 for any number of rounds, increasing) and L >= 4a for Length2 proved. The ellipse has exactly one length, the sums of Length4 converge to it with error at most 8 pi (a+b) m^(n+1), and Length1 <= L <= Length2 within small multiples of m^6. Partial because the bound 4a is false of Length1 (C62_Length1_refuted)."
  },
  {
   "property": "C63",
   "status": "proved",
   "theorems": [
    "C63_sun",
    "C63_equation_of_time",
    "C63_equation_of_time_smart",
    "C63_limb"
   ],
   "note": "Exact arithmetic. Functions without documented normalisation (solar.ApparentLongitude, planetposition.Position longitude) are not included; right ascensions of coord and precess are in C39-C43."
  },
  {
   "property": "C64",
   "status": "partial",
   "theorems": [
    "C64_planetary_sound",
    "C64_planetary_found_partial",
    "C64_errors",
    "C64_stellar",
    "C64_outer_refuted",
    "C64_middle_refuted",
    "C64_wrap_refuted"
   ],
   "note": "Real arithmetic with infinities and NaN (XFlt). Soundness for every table; completeness for nearly uniform relative motion, conjunction within the middle half of the table and not exactly at the middle row (Newton iteration proved to converge quadratically within the 50 steps). Refuted: outer half (strict interpolation rejects it), middle row (relative test divides by zero), right ascensions a turn apart. Missing: completeness for strongly curved tables."
  },
  {
   "property": "C65",
   "status": "proved",
   "theorems": [
    "C65_Kepler4"
   ],
   "note": "Exact arithmetic."
  },
  {
   "property": "C66",
   "status": "proved",
   "theorems": [
    "C66_heliocentric",
    "C66_astrometric"
   ],
   "note": "Exact arithmetic. The Sun position and the orbit function are parameters; obliquity enters through its sine and cosine."
  },
  {
   "property": "C67",
   "status": "proved",
   "theorems": [
    "C67_Position",
    "C67_EclipticPosition",
    "C67_ProperMotion3D",
    "C67_Nutation",
    "C67_EclipticAberration",
    "C67_Aberration",
    "C67_Aberration_agree",
    "C67_RonVondrak"
   ],
   "note": "Exact arithmetic. The values of nutation (63-term table) and of the Ron-Vondrak sums are arguments."
  },
  {
   "property": "C68",
   "status": "partial",
   "theorems": [
    "C68_unimodal_ends",
    "C68_zero_step_refuted",
    "C68_equal_samples_far_refuted",
    "C68_equal_samples_near_refuted"
   ],
   "note": "Termination proved for a radius with one extremum and no equal neighbouring samples. False in general: zero step (C68_zero_step_refuted) or two equal most extreme samples (C68_equal_samples_far_refuted, C68_equal_samples_near_refuted) make it loop forever."
  },
  {
   "property": "C69",
   "status": "partial",
   "theorems": [
    "C69_new_full",
    "C69_quarters",
    "C69_half_day_new_refuted",
    "C69_half_day_first_refuted"
   ],
   "note": "False as documented: C69_half_day_new_refuted, C69_half_day_first_refuted. Proved bounds: 0.638 day for new and full moon, 0.854 day for the quarters."
  },
  {
   "property": "C70",
   "status": "proved",
   "theorems": [
    "C70_phases",
    "C70_apsides",
    "C70_nodes",
    "C70_declinations",
    "C70_declination_range"
   ],
   "note": "Exact arithmetic; the bounds of the corrections are by the triangle inequality."
  },
  {
   "property": "C71",
   "status": "partial",
   "theorems": [
    "C71_inverse_square",
    "C71_fainter_with_phase",
    "C71_saturn_fainter_with_phase",
    "C71_saturn84_refuted",
    "C71_saturn84_error",
    "C71_venus84_refuted",
    "C71_formulas"
   ],
   "note": "Inverse square law proved for all fifteen functions. Monotonicity proved for Mercury, Venus, Mars, Saturn, Mercury84, Mars84, Jupiter84; false for Saturn84, which divides by |dU| (C71_saturn84_refuted), and Venus84, whose quadratic and cubic terms have swapped signs (C71_venus84_refuted)."
  },
  {
   "property": "C72",
   "status": "partial",
   "theorems": [
    "C72_moon_topocentric",
    "C72_moon_topocentric2_refuted",
    "C72_saturn_ellipsoid",
    "C72_saturn_between",
    "C72_saturn_ends",
    "C72_asteroid"
   ],
   "note": "All proved except MoonTopocentric2, 16% too small because the constant Moon is an integer quotient (C72_moon_topocentric2_refuted)."
  },
  {
   "property": "C73",
   "status": "proved",
   "theorems": [
    "C73_position_of_file",
    "C73_position_of_date",
    "C73_sun",
    "C73_apparent_sun"
   ],
   "note": "Exact arithmetic. The theorem starts at the bytes of the file."
  },
  {
   "property": "C74",
   "status": "proved",
   "theorems": [
    "C74_bounded",
    "C74_approximate",
    "C74_obliquity",
    "C74_obliquity_range"
   ],
   "note": "Approximation: from 1950 to 2050. The bound 0.1 arc seconds by a grid bound for trigonometric polynomials in three angles."
  },
  {
   "property": "C75",
   "status": "proved",
   "theorems": [
    "C75_of_date",
    "C75_opposite",
    "C75_longitude",
    "C75_distance",
    "C75_equinox"
   ],
   "note": "Exact arithmetic. solarxyz.Position omits the cosine of the latitude (below 2e-11 relative); C75_of_date bounds the effect."
  },
  {
   "property": "C76",
   "status": "proved",
   "theorems": [
    "C76_true_longitude",
    "C76_true_place",
    "C76_apparent_place",
    "C76_radius",
    "C76_equation_of_time",
    "C76_smart",
    "C76_eccentricity"
   ],
   "note": "Exact arithmetic."
  },
  {
   "property": "C77",
   "status": "proved",
   "theorems": [
    "C77_dates",
    "C77_seasons",
    "C77_winter",
    "C77_years"
   ],
   "note": "Exact reals; the polynomials and the 24 periodic terms are those of the source. Dates, order, lengths of seasons and years for every year of -1000..3000."
  },
  {
   "property": "C78",
   "status": "proved",
   "theorems": [
    "C78_march",
    "C78_june",
    "C78_september",
    "C78_december",
    "C78_sound",
    "C78_search"
   ],
   "note": "Exact reals; the loop has fuel, the theorems hold for every fuel above 10. Soundness for any table; termination and the value for tables that move the Sun between 0.0166 and 0.0178 radians a day. The searches do not end for a table whose Sun stands still or a NaN."
  },
  {
   "property": "C79",
   "status": "proved",
   "theorems": [
    "C79_parallactic",
    "C79_on_horizon",
    "C79_ecliptic_at_horizon",
    "C79_ecliptic_at_equator",
    "C79_diurnal_path",
    "C79_never_on_horizon"
   ],
   "note": "Exact reals. At the pole of the horizon system (cos phi = 0) the formulas divide by zero and are not covered. EclipticAtEquator measures against the parallel of declination although its comment names parallels of ecliptic latitude; DiurnalPathAtHorizon is negative for southern latitudes and NaN where the body never meets the horizon."
  },
  {
   "property": "C80",
   "status": "partial",
   "theorems": [
    "C80_above_15",
    "C80_decreasing",
    "C80_order",
    "C80_positive_partial",
    "C80_positive_refuted",
    "C80_inverse",
    "C80_bennett2",
    "C80_saemundsson_bennett"
   ],
   "note": "Exact reals. Positive except near the zenith, where Bennett, Bennett2 and Saemundsson are negative (C80_positive_refuted). Saemundsson and Bennett agree within the documented 4 arc seconds in both directions, from the horizon to 0.1 degree from the zenith."
  },
  {
   "property": "C81",
   "status": "partial",
   "theorems": [
    "C81_total_refuted",
    "C81_panics",
    "C81_elements",
    "C81_orbits_apart",
    "C81_mean_motion"
   ],
   "note": "Exact reals. Mean and Node panic for Earth (C81_total_refuted); the rest of the property is proved for the other seven planets."
  },
  {
   "property": "C82",
   "status": "proved",
   "theorems": [
    "C82_center",
    "C82_rotation",
    "C82_pole",
    "C82_position_angle",
    "C82_cycle",
    "C82_cycle_order",
    "C82_node"
   ],
   "note": "Exact reals, for any VSOP87 table. That L0 vanishes at the instants of Cycle is not proved (it depends on the VSOP87 tables, which are input)."
  },
  {
   "property": "C83",
   "status": "proved",
   "theorems": [
    "C83_light_time",
    "C83_center",
    "C83_rotation",
    "C83_axis",
    "C83_sun_place",
    "C83_light_unit",
    "C83_sun",
    "C83_pole",
    "C83_defect",
    "C83_diameter"
   ],
   "note": "mars.Physical over the reals for arbitrary tables: the Earth seen from Mars in the frame of the equator is (W - omega, DE); DS; P at the apparent place (first-order aberration, nutation); Q away from the Sun; d, q, k. Illuminated fraction bounded by 1 + R^2 sin^2 b0/(4 r Delta): the code omits cos b0 of the Earth's latitude."
  },
  {
   "property": "C84",
   "status": "proved",
   "theorems": [
    "C84_center",
    "C84_rotation",
    "C84_axis",
    "C84_light",
    "C84_phase",
    "C84_sun",
    "C84_pole",
    "C84_triangle",
    "C84_low_precision"
   ],
   "note": "jupiter.Physical over the reals: both central meridians with light time and phase, DE, DS, P with first-order aberration and nutation; Physical2: triangle and ranges."
  },
  {
   "property": "C85",
   "status": "partial",
   "theorems": [
    "C85_ring_partial",
    "C85_plane",
    "C85_sun_place",
    "C85_difference_refuted",
    "C85_edges",
    "C85_pole",
    "C85_UB"
   ],
   "note": "saturnring.Ring and UB over the reals: B, B', P, axes, longitudes. The difference of longitudes is not reduced to half a turn: C85_difference_refuted shows it exceeds pi for a Saturn at rest near the ascending direction, where illum.Saturn adds up to 15 magnitudes."
  },
  {
   "property": "C86",
   "status": "proved",
   "theorems": [
    "C86_arguments",
    "C86_leading_terms",
    "C86_range",
    "C86_parallax",
    "C86_parallax_range",
    "C86_true_node"
   ],
   "note": "moonposition over the reals, dates within 20 centuries of J2000 for the bounds; the longitude is Mod1(L') plus the series and is not reduced, so it is compared up to whole turns."
  },
  {
   "property": "C87",
   "status": "proved",
   "theorems": [
    "C87_librations",
    "C87_places",
    "C87_state",
    "C87_same_face",
    "C87_axis",
    "C87_sun",
    "C87_inclination"
   ],
   "note": "moon.Physical over the reals. The optical libration is exact, the physical libration and the parallax of the Sun are first order, as in the code. The code feeds the longitude of the Sun with nutation into a frame without it; the statement for the Sun is relative to that heliocentric longitude."
  },
  {
   "property": "C88",
   "status": "partial",
   "theorems": [
    "C88_altitude",
    "C88_fixed_partial",
    "C88_distinct_refuted",
    "C88_sunrise_converges_partial",
    "C88_sunset_converges_partial",
    "C88_sunrise_leaves_sunset_partial"
   ],
   "note": "SunAltitude proved. Sunrise and Sunset are two correction steps with a fixed rate: from a start within reach of a crossing where the altitude of the Sun changes at that rate up to a fraction q, the remaining error is q^2 of the initial one (C88_sunrise_converges_partial, C88_sunset_converges_partial); from near the opposite crossing they move away. False: started when the Sun is on the horizon both return the starting time, so setting is reported as rising (C88_distinct_refuted). Missing: that the altitude computed from the ephemeris has that rate."
  },
  {
   "property": "C89",
   "status": "proved",
   "theorems": [
    "C89_range",
    "C89_period",
    "C89_rectangular",
    "C89_astrometric"
   ],
   "note": "Heliocentric and Astrometric over the reals, for every date. The sine and cosine of the obliquity are the rounded constants of package base (sum of squares 1 within 1e-8). Astrometric assumes a Sun closer than 20 au and not at the Earth."
  },
  {
   "property": "C90",
   "status": "proved",
   "theorems": [
    "C90_frame",
    "C90_inner",
    "C90_outer",
    "C90_order",
    "C90_resonance_mimas_tethys",
    "C90_resonance_enceladus_dione",
    "C90_light_time",
    "C90_view"
   ],
   "note": "Positions over the reals. The orbit statements name the internal function of each satellite; the view theorem ties them to the returned list. Needs |lat| < 30 degrees, distance above 1 au and five centuries around 1885 (the elements of Iapetus are polynomials)."
  },
  {
   "property": "C91",
   "status": "proved",
   "theorems": [
    "C91_view",
    "C91_order",
    "C91_triangle",
    "C91_laplace",
    "C91_laplace_true",
    "C91_never_aligned",
    "C91_agrees_with_E5"
   ],
   "note": "Ideal real arithmetic. View, order, Sun-Earth-Jupiter triangle, Laplace relation and its consequence, agreement of the mean longitudes with E5."
  },
  {
   "property": "C92",
   "status": "proved",
   "theorems": [
    "C92_ranges",
    "C92_laplace",
    "C92_laplace_true",
    "C92_origin",
    "C92_light_time",
    "C92_view"
   ],
   "note": "Ideal real arithmetic. Ranges of all sums, Laplace relation, origin independence, light time, projection; the documented reduction to FK5 is not made by the code and so is not in the statement."
  },
  {
   "property": "C93",
   "status": "proved",
   "theorems": [
    "C93_apparent_place"
   ],
   "note": "Exact-real model over arbitrary VSOP87 tables. Float rounding not modelled."
  },
  {
   "property": "C94",
   "status": "proved",
   "theorems": [
    "C94_approximate",
    "C94_corrected",
    "C94_error"
   ],
   "note": "The times of ApproxPlanet are characterised completely; Planet is one correction step of exactly the stated form, and the error it leaves is bounded by the day-to-day motion (C94_error; the hypotheses are on the three computed places, and with right ascensions passing 24h between them they hold only with a large bound: see C47_wrap_refuted). On exact reals."
  },
  {
   "property": "C95",
   "status": "proved",
   "theorems": [
    "C95_phases",
    "C95_phase_arguments",
    "C95_eclipse_arguments",
    "C95_apsides",
    "C95_apsis_arguments",
    "C95_nodes",
    "C95_node_arguments",
    "C95_declinations",
    "C95_position"
   ],
   "note": "Exact reals; polynomial composition checked by computation in Q (L_meanmotion.v)."
  },
  {
   "property": "C96",
   "status": "proved",
   "theorems": [
    "C96_mean_events",
    "C96_perihelia",
    "C96_barycentre"
   ],
   "note": "Exact reals; the theorems are about the mean instants, before the periodic terms (bounded by C48)."
  },
  {
   "property": "C97",
   "status": "proved",
   "theorems": [
    "C97_RonVondrak",
    "C97_velocity",
    "C97_ecliptic",
    "C97_equatorial",
    "C97_size"
   ],
   "note": "The three functions over the real numbers; the velocities are compared as vectors, with the ecliptic precession and the obliquity of J2000 of this library; T between -1 and 1."
  },
  {
   "property": "C98",
   "status": "partial",
   "theorems": [
    "C98_displacement",
    "C98_declination_partial",
    "C98_declination_refuted"
   ],
   "note": "Proved at least 50.4 arc seconds from the poles; refuted at the pole: the corrections are added to the declination and the result exceeds 90 degrees. The bound on the displacement holds everywhere but at the poles themselves."
  },
  {
   "property": "C99",
   "status": "proved",
   "theorems": [
    "C99_equatorial",
    "C99_ecliptic",
    "C99_forms",
    "C99_rotations"
   ],
   "note": "Equatorial round trip exact for all epochs; ecliptic round trip within 0.04 arc seconds; equatorial and ecliptic forms within 0.0002 (1900-2100) and 0.26 (1000-3000) arc seconds, by verified Taylor models."
  },
  {
   "property": "C100",
   "status": "proved",
   "theorems": [
    "C100_seasons"
   ],
   "note": "Longitude at the mean instants by Taylor models in the year for the eight polynomials, the periodic terms carried along exactly."
  },
  {
   "property": "C101",
   "status": "proved",
   "theorems": [
    "C101_solar_time"
   ],
   "note": "One argument jd for both time scales; the model of the Earth's tables is a parameter."
  },
  {
   "property": "C102",
   "status": "proved",
   "theorems": [
    "C102_smart"
   ],
   "note": "Exact reals; 5 seconds proved, the largest difference is about 3.2 seconds."
  },
  {
   "property": "C103",
   "status": "proved",
   "theorems": [
    "C103_bisection"
   ],
   "note": "IEEE double precision (Flocq binary64), round to nearest even, no fused multiply-add. Holds for any function, also one that returns NaN; the sign is the sign bit, as in the code."
  },
  {
   "property": "C104",
   "status": "proved",
   "theorems": [
    "C104_horner_error"
   ],
   "note": "IEEE double precision, no fused multiply-add. Assumes the result is finite (no overflow)."
  },
  {
   "property": "C105",
   "status": "partial",
   "theorems": [
    "C105_value",
    "C105_value_n",
    "C105_strict_partial",
    "C105_strict_refuted"
   ],
   "note": "IEEE double precision. The value is proved within 33 units on grids of binary fractions; strict acceptance is exact on such grids (C105_strict_partial) and refuted in general: a table from 0.1 to 0.2 rejects 0.1 (C105_strict_refuted)."
  },
  {
   "property": "C106",
   "status": "proved",
   "theorems": [
    "C106_julian_epochs",
    "C106_besselian_epochs",
    "C106_round_trip",
    "C106_order",
    "C106_century"
   ],
   "note": "IEEE double precision. The constants 365.2421988 and 2415020.3135 are the nearest float64."
  },
  {
   "property": "C107",
   "status": "proved",
   "theorems": [
    "C107_calendar",
    "C107_day_of_week",
    "C107_time",
    "C107_time_back",
    "C107_time_error"
   ],
   "note": "IEEE double precision, no fused multiply-add. Every float64 from 2097152 to 4192776 (years 1029 to 6767)."
  },
  {
   "property": "C108",
   "status": "proved",
   "theorems": [
    "C108_returns_iff",
    "C108_rounds",
    "C108_accuracy",
    "C108_planets"
   ],
   "note": "IEEE double precision, no fused multiply-add. The error bound is for a from 2^-900 to 2^1000, where nothing overflows or underflows; the returns-or-not theorem is for all float64."
  },
  {
   "property": "C109",
   "status": "proved",
   "theorems": [
    "C109_point",
    "C109_latitude",
    "C109_Rho",
    "C109_ParallaxConstants"
   ],
   "note": ""
  },
  {
   "property": "C110",
   "status": "partial",
   "theorems": [
    "C110_MinSep_errors",
    "C110_MinSep_partial",
    "C110_MinSep_refuted",
    "C110_MinSepRect_rows",
    "C110_MinSepRect_errors",
    "C110_MinSepRect_result",
    "C110_MinSepRect_uniform",
    "C110_MinSepRect_converges",
    "C110_MinSepRect_partial",
    "C110_MinSepRect_still",
    "C110_MinSepRect_refuted"
   ],
   "note": "Proved: exactly when the length and interval errors are returned; a result of MinSep is the extremum of the parabola through the separations, inside the table, and a minimum if they are convex (C110_MinSep_partial); it is a maximum otherwise (C110_MinSep_refuted). MinSepRect: its plane coordinates give the separation of each row within 2 th^3 for coordinate differences up to th <= 0.2; every result is a distance on the interpolated path at the foot of a perpendicular; exact for uniform motion; for nearly uniform motion (second differences at most 1/20 of the motion per row, middle row within one row's motion) it converges and exceeds no distance inside the table by more than 2e-5 of the motion per row. C110_MinSepRect_refuted: the closest approach may lie outside the table without an error. Missing: convergence for strongly curved paths; real arithmetic, not float64."
  },
  {
   "property": "C111",
   "status": "proved",
   "theorems": [
    "C111_motion",
    "C111_rotation",
    "C111_size",
    "C111_separation"
   ],
   "note": "The first-order identity, the second-order bound, the size of the rotation and the preservation of separations, for every direction off the poles (where the code's tangent is infinite). Real arithmetic."
  },
  {
   "property": "C112",
   "status": "proved",
   "theorems": [
    "C112_perigee",
    "C112_apogee",
    "C112_perigee_distance",
    "C112_apogee_distance"
   ],
   "note": "Bounds on the parallaxes, the matching distances, and their dependence on the elongation of the Moon, for years 0 to 4000."
  },
  {
   "property": "C113",
   "status": "proved",
   "theorems": [
    "C113_same_place",
    "C113_RA"
   ],
   "note": "The two directions agree to 0.084 arc seconds and a second-order term that grows towards the poles, where the corrections to right ascension do."
  },
  {
   "property": "C114",
   "status": "proved",
   "theorems": [
    "C114_moon",
    "C114_moon_mean",
    "C114_sun",
    "C114_star"
   ],
   "note": "The geometry of the limb on the horizon to first order in parallax and refraction."
  },
  {
   "property": "C115",
   "status": "partial",
   "theorems": [
    "C115_asteroid_refuted",
    "C115_asteroid_partial"
   ],
   "note": "False: the returned angle is twice the semidiameter (C115_asteroid_refuted). Proved: it is the angular diameter to one part in twenty thousand."
  },
  {
   "property": "C116",
   "status": "proved",
   "theorems": [
    "C116_True2000"
   ],
   "note": "Agreement of True2000 with True through the ecliptic precession."
  },
  {
   "property": "C117",
   "status": "partial",
   "theorems": [
    "C117_names",
    "C117_names_differ",
    "C117_order",
    "C117_converted_refuted",
    "C117_converted_partial"
   ],
   "note": "Names proved for all ints. False for converted dates: 1844 January 1 gets month 0 and String panics (C117_converted_refuted). C117_converted_partial says exactly on which days this happens."
  },
  {
   "property": "C118",
   "status": "proved",
   "theorems": [
    "C118_equator",
    "C118_meridian",
    "C118_meridian_has_length",
    "C118_approximate"
   ],
   "note": "Exact reals. For equal and opposite places Distance is NaN (C42)."
  },
  {
   "property": "C119",
   "status": "proved",
   "theorems": [
    "C119_accurate",
    "C119_passage_exists"
   ],
   "note": "Exact real arithmetic. Stated for values returned; whether the loops converge is C59 (they always end, with a value or the error)."
  },
  {
   "property": "C120",
   "status": "proved",
   "theorems": [
    "C120_passage_unique",
    "C120_kepler",
    "C120_Kepler2b",
    "C120_parabolic",
    "C120_EllipticAscending",
    "C120_EllipticDescending",
    "C120_ParabolicAscending",
    "C120_ParabolicDescending",
    "C120_nearparabolic_kepler"
   ],
   "note": "Exact real arithmetic. Anomalies strictly between -pi and pi (one revolution). Existence of the passage time is C119_passage_exists."
  },
  {
   "property": "C121",
   "status": "proved",
   "theorems": [
    "C121_converges"
   ],
   "note": "Exact real arithmetic. The region is sufficient, not claimed to be the largest."
  },
  {
   "property": "C122",
   "status": "proved",
   "theorems": [
    "C122_transit_days",
    "C122_transit",
    "C122_star",
    "C122_rise_set"
   ],
   "note": "On exact reals. The transit bound supposes that the correction is less than 40000 s, since Times may slip a day (C47_range_refuted, C47_wrap_refuted)."
  },
  {
   "property": "C123",
   "status": "proved",
   "theorems": [
    "C123_above",
    "C123_circumpolar"
   ],
   "note": "On exact reals; the sidereal clock runs at the rate of the civil clock, as in ApproxTimes."
  },
  {
   "property": "C124",
   "status": "proved",
   "theorems": [
    "C124_shift",
    "C124_approximate",
    "C124_corrected"
   ],
   "note": "On exact reals. The transit of Times may differ by whole days (C47_range_refuted)."
  }
 ]
}