(** Model of moonposition/moonposition.go and moon/moon.go over the real numbers. *)
From Coq Require Import ZArith Reals List.
From Flocq Require Import Core.
From Verif Require Import GoFloat GoMath M_base M_coord M_precess M_vsop M_light M_moonconst M_solar.
Import ListNotations.
Local Open Scope R_scope.

(** moonposition/moonposition.go:22 *)
Definition p_ : R := PI / 180.

(** moonposition/moonposition.go:24-34.  Here the constants are quotients of floating-point numbers. *)
Definition dmf (T : R) : R * R * R * R :=
  (HornerR T [2978501921 / 10000000 * p_; 4452671114034 / 10000000 * p_; - (18819 / 10000000) * p_; p_ / 545868; - p_ / 113065000],
   HornerR T [3575291092 / 10000000 * p_; 359990502909 / 10000000 * p_; - (1535 / 10000000) * p_; p_ / 24490000],
   HornerR T [1349633964 / 10000000 * p_; 4771988675055 / 10000000 * p_; 87414 / 10000000 * p_; p_ / 69699; - p_ / 14712000],
   HornerR T [93272095 / 1000000 * p_; 4832020175233 / 10000000 * p_; - (36539 / 10000000) * p_; - p_ / 3526000; p_ / 863310000]).

(** moonposition/moonposition.go:93-168 *)
Definition ta : list (Z * Z * Z * Z * Z * Z) := ([
  (0, 0, 1, 0, 6288774, (-20905355)); (2, 0, (-1), 0, 1274027, (-3699111)); (2, 0, 0, 0, 658314, (-2955968)); (0, 0, 2, 0, 213618, (-569925));
  (0, 1, 0, 0, (-185116), 48888); (0, 0, 0, 2, (-114332), (-3149)); (2, 0, (-2), 0, 58793, 246158); (2, (-1), (-1), 0, 57066, (-152138));
  (2, 0, 1, 0, 53322, (-170733)); (2, (-1), 0, 0, 45758, (-204586)); (0, 1, (-1), 0, (-40923), (-129620)); (1, 0, 0, 0, (-34720), 108743);
  (0, 1, 1, 0, (-30383), 104755); (2, 0, 0, (-2), 15327, 10321); (0, 0, 1, 2, (-12528), 0); (0, 0, 1, (-2), 10980, 79661);
  (4, 0, (-1), 0, 10675, (-34782)); (0, 0, 3, 0, 10034, (-23210)); (4, 0, (-2), 0, 8548, (-21636)); (2, 1, (-1), 0, (-7888), 24208);
  (2, 1, 0, 0, (-6766), 30824); (1, 0, (-1), 0, (-5163), (-8379)); (1, 1, 0, 0, 4987, (-16675)); (2, (-1), 1, 0, 4036, (-12831));
  (2, 0, 2, 0, 3994, (-10445)); (4, 0, 0, 0, 3861, (-11650)); (2, 0, (-3), 0, 3665, 14403); (0, 1, (-2), 0, (-2689), (-7003));
  (2, 0, (-1), 2, (-2602), 0); (2, (-1), (-2), 0, 2390, 10056); (1, 0, 1, 0, (-2348), 6322); (2, (-2), 0, 0, 2236, (-9884));
  (0, 1, 2, 0, (-2120), 5751); (0, 2, 0, 0, (-2069), 0); (2, (-2), (-1), 0, 2048, (-4950)); (2, 0, 1, (-2), (-1773), 4130);
  (2, 0, 0, 2, (-1595), 0); (4, (-1), (-1), 0, 1215, (-3958)); (0, 0, 2, 2, (-1110), 0); (3, 0, (-1), 0, (-892), 3258);
  (2, 1, 1, 0, (-810), 2616); (4, (-1), (-2), 0, 759, (-1897)); (0, 2, (-1), 0, (-713), (-2117)); (2, 2, (-1), 0, (-700), 2354);
  (2, 1, (-2), 0, 691, 0); (2, (-1), 0, (-2), 596, 0); (4, 0, 1, 0, 549, (-1423)); (0, 0, 4, 0, 537, (-1117));
  (4, (-1), 0, 0, 520, (-1571)); (1, 0, (-2), 0, (-487), (-1739)); (2, 1, 0, (-2), (-399), 0); (0, 0, 2, (-2), (-381), (-4421));
  (1, 1, 1, 0, 351, 0); (3, 0, (-2), 0, (-340), 0); (4, 0, (-3), 0, 330, 0); (2, (-1), 2, 0, 327, 0);
  (0, 2, 1, 0, (-323), 1165); (1, 1, (-1), 0, 299, 0); (2, 0, 3, 0, 294, 0); (2, 0, (-1), (-2), 0, 8752)])%Z.
(** moonposition/moonposition.go:172-248 *)
Definition tb : list (Z * Z * Z * Z * Z) := ([
  (0, 0, 0, 1, 5128122); (0, 0, 1, 1, 280602); (0, 0, 1, (-1), 277693); (2, 0, 0, (-1), 173237);
  (2, 0, (-1), 1, 55413); (2, 0, (-1), (-1), 46271); (2, 0, 0, 1, 32573); (0, 0, 2, 1, 17198);
  (2, 0, 1, (-1), 9266); (0, 0, 2, (-1), 8822); (2, (-1), 0, (-1), 8216); (2, 0, (-2), (-1), 4324);
  (2, 0, 1, 1, 4200); (2, 1, 0, (-1), (-3359)); (2, (-1), (-1), 1, 2463); (2, (-1), 0, 1, 2211);
  (2, (-1), (-1), (-1), 2065); (0, 1, (-1), (-1), (-1870)); (4, 0, (-1), (-1), 1828); (0, 1, 0, 1, (-1794));
  (0, 0, 0, 3, (-1749)); (0, 1, (-1), 1, (-1565)); (1, 0, 0, 1, (-1491)); (0, 1, 1, 1, (-1475));
  (0, 1, 1, (-1), (-1410)); (0, 1, 0, (-1), (-1344)); (1, 0, 0, (-1), (-1335)); (0, 0, 3, 1, 1107);
  (4, 0, 0, (-1), 1021); (4, 0, (-1), 1, 833); (0, 0, 1, (-3), 777); (4, 0, (-2), 1, 671);
  (2, 0, 0, (-3), 607); (2, 0, 2, (-1), 596); (2, (-1), 1, (-1), 491); (2, 0, (-2), 1, (-451));
  (0, 0, 3, (-1), 439); (2, 0, 2, 1, 422); (2, 0, (-3), (-1), 421); (2, 1, (-1), 1, (-366));
  (2, 1, 0, 1, (-351)); (4, 0, 0, 1, 331); (2, (-1), 1, 1, 315); (2, (-2), 0, (-1), 302);
  (0, 0, 1, 3, (-283)); (2, 1, 1, (-1), (-229)); (1, 1, 0, (-1), 223); (1, 1, 0, 1, 223);
  (0, 1, (-2), (-1), (-220)); (2, 1, (-1), (-1), (-220)); (1, 0, 1, 1, (-185)); (2, (-1), (-2), (-1), 181);
  (0, 1, 2, 1, (-177)); (4, 0, (-2), (-1), 176); (4, (-1), (-1), (-1), 166); (1, 0, 1, (-1), (-164));
  (4, 0, 1, (-1), 132); (1, 0, (-1), (-1), (-119)); (4, (-1), 0, (-1), 115); (2, (-2), 0, 1, 107)])%Z.
(** moonposition/moonposition.go:46-47, 49-51, 52 *)
Definition moonL (T : R) : R := HornerR T [2183164477 / 10000000 * p_; 48126788123421 / 100000000 * p_; - (15786 / 10000000) * p_; p_ / 538841; - p_ / 65194000].
Definition moonA1 (T : R) : R := 11975 / 100 * p_ + 131849 / 1000 * p_ * T.
Definition moonA2 (T : R) : R := 5309 / 100 * p_ + 47926429 / 100 * p_ * T.
Definition moonA3 (T : R) : R := 31345 / 100 * p_ + 481266484 / 1000 * p_ * T.
Definition moonE (T : R) : R := HornerR T [1; - (2516 / 1000000); - (74 / 10000000)].

(** The switch of moonposition/moonposition.go:61-70 and 75-82: the factor of a term, none for |M| > 2. *)
Definition Efactor (E : R) (M : Z) : R :=
  match Z.abs M with 0%Z => 1 | 1%Z => E | 2%Z => E * E | _ => 0 end.
(** moonposition/moonposition.go:58-71 *)
Definition sumA (D M N F E : R) : R * R -> R * R :=
  fold_left (fun acc row => let '(d, m, n, f, cl, cr) := row in let '(sl, sr) := acc in
      let a := D * IZR d + M * IZR m + N * IZR n + F * IZR f in
      (sl + IZR cl * sin a * Efactor E m, sr + IZR cr * cos a * Efactor E m)) ta.
(** moonposition/moonposition.go:72-83 *)
Definition sumB (D M N F E : R) : R -> R :=
  fold_left (fun sb row => let '(d, m, n, f, cb) := row in
      sb + IZR cb * sin (D * IZR d + M * IZR m + N * IZR n + F * IZR f) * Efactor E m) tb.
(** moonposition/moonposition.go:44-88 *)
Definition MoonPosition (jde : R) : R * R * R :=
  let T := J2000Century (fl := RFlt) jde in
  let L := moonL T in let '(D, M, N, F) := dmf T in
  let E := moonE T in let A1 := moonA1 T in let A2 := moonA2 T in let A3 := moonA3 T in
  let sl0 := 3958 * sin A1 + 1962 * sin (L - F) + 318 * sin A2 in
  let sb0 := - 2235 * sin L + 382 * sin A3 + 175 * sin (A1 - F) + 175 * sin (A1 + F) + 127 * sin (L - N) - 115 * sin (L + N) in
  let '(sl, sr) := sumA D M N F E (sl0, 0) in
  let sb := sumB D M N F E sb0 in
  (Mod1 L + AngleFromDeg (sl * (1 / 1000000)), AngleFromDeg (sb * (1 / 1000000)), 38500056 / 100 + sr * (1 / 1000)).
(** moonposition/moonposition.go:17-20 *)
Definition MoonParallax (D : R) : R := asin (637814 / 100 / D).
(** moonposition/moonposition.go:265-273 *)
Definition TrueNode (jde : R) : R :=
  let '(D, M, N, F) := dmf (J2000Century (fl := RFlt) jde) in
  Node jde + AngleFromDeg (- (14979 / 10000) * sin (2 * (D - F)) + - (15 / 100) * sin M + - (1226 / 10000) * sin (2 * D) + 1176 / 10000 * sin (2 * F) + - (801 / 10000) * sin (2 * (N - F))).

(** ** moon *)
(** moon/moon.go:23 *)
Definition moonI : R := AngleFromDeg (154242 / 100000).
(** A sum of periodic terms with integer coefficients. *)
Definition series (l : list (Z * R)) : R := fold_right (fun t s => IZR (fst t) * snd t + s) 0 l.
(** moon/moon.go:79-88, in units of 1e-5 degrees *)
Definition rho_terms (D M' F : R) : list (Z * R) := [
    ((-2752)%Z, cos M'); ((-2245)%Z, sin F); (684%Z, cos (M'-2*F)); ((-293)%Z, cos (2*F)); ((-85)%Z, cos (2*(F-D))); ((-54)%Z, cos (M'-2*D));
    ((-20)%Z, sin (M'+F)); ((-20)%Z, cos (M'+2*F)); ((-20)%Z, cos (M'-F)); (14%Z, cos (M'+2*(F-D)))].
(** moon/moon.go:89-101, in units of 1e-5 degrees *)
Definition sigma_terms (D M' F : R) : list (Z * R) := [
    ((-2816)%Z, sin M'); (2244%Z, cos F); ((-682)%Z, sin (M'-2*F)); ((-279)%Z, sin (2*F)); ((-83)%Z, sin (2*(F-D))); (69%Z, sin (M'-2*D));
    (40%Z, cos (M'+F)); ((-25)%Z, sin (2*M')); ((-23)%Z, sin (M'+2*F)); (20%Z, cos (M'-F)); (19%Z, sin (M'-F)); (13%Z, sin (M'+2*(F-D)));
    ((-10)%Z, cos (M'-3*F))].
(** moon/moon.go:102-120, in units of 1e-5 degrees *)
Definition tau_terms (D M M' F Om K1 K2 E : R) : list (Z * R) := [
    (2520%Z, sin M * E); (473%Z, sin (2*(M'-F))); ((-467)%Z, sin M'); (396%Z, sin K1); (276%Z, sin (2*(M'-D))); (196%Z, sin Om);
    ((-183)%Z, cos (M'-F)); (115%Z, sin (M'-2*D)); ((-96)%Z, sin (M'-D)); (46%Z, sin (2*(F-D))); ((-39)%Z, sin (M'-F)); ((-32)%Z, sin (M'-M-D));
    (27%Z, sin (2*(M'-D)-M)); (23%Z, sin K2); ((-14)%Z, sin (2*D)); (14%Z, cos (2*(M'-F))); ((-12)%Z, sin (M'-2*F)); ((-12)%Z, sin (2*M'));
    (11%Z, sin (2*(M'-M-D)))].

(** moon/moon.go:47-54 *)
Record moon := mkmoon { m_jde : R; m_dpsi : R; m_F : R; m_Om : R; m_se : R; m_ce : R; m_rho : R; m_sig : R; m_tau : R }.
(** moon/moon.go:56-122 *)
Definition newMoon (jde : R) : moon :=
  let '(dpsi, deps) := Nutation jde in
  let T := J2000Century (fl := RFlt) jde in
  let F := AngleFromDeg (argF T) in
  let Om := AngleFromDeg (nodeDeg T) in
  let eps := MeanObliquity jde + deps in
  let D := AngleFromDeg (argD T) in let M := AngleFromDeg (argM T) in let M' := AngleFromDeg (argM' T) in
  let E := moonE T in
  let K1 := AngleFromDeg (11975 / 100 + 131849 / 1000 * T) in let K2 := AngleFromDeg (7256 / 100 + 20186 / 1000 * T) in
  mkmoon jde dpsi F Om (sin eps) (cos eps)
    (AngleFromDeg (series (rho_terms D M' F) / 100000)) (AngleFromDeg (series (sigma_terms D M' F) / 100000))
    (AngleFromDeg (series (tau_terms D M M' F Om K1 K2 E) / 100000)).
(** moon/moon.go:140-149 *)
Definition optical (m : moon) (lam be : R) : R * R * R :=
  let W := lam - m_Om m in
  let A := atan2 (sin W * cos be * cos moonI - sin be * sin moonI) (cos W * cos be) in
  (Mod1 (A - m_F m), asin (- sin W * cos be * sin moonI - sin be * cos moonI), A).
(** moon/moon.go:151-157 *)
Definition physical (m : moon) (A b : R) : R * R :=
  (- m_tau m + (m_rho m * cos A + m_sig m * sin A) * tan b, m_sig m * cos A - m_rho m * sin A).
(** moon/moon.go:129-138 *)
Definition lib (m : moon) (lam be : R) : R * R :=
  let '(l1, b1, A) := optical m lam be in
  let '(l2, b2) := physical m A b1 in
  let l := l1 + l2 in ((if Rlt_bool PI l then l - 2 * PI else l), b1 + b2).
(** moon/moon.go:159-172 *)
Definition paX (m : moon) : R := sin (moonI + m_rho m) * sin (m_Om m + m_dpsi m + m_sig m / sin moonI).
Definition paY (m : moon) : R := sin (moonI + m_rho m) * cos (m_Om m + m_dpsi m + m_sig m / sin moonI) * m_ce m - cos (moonI + m_rho m) * m_se m.
Definition moon_pa (m : moon) (lam be b : R) : R :=
  let X := paX m in let Y := paY m in
  let om := atan2 X Y in
  let a := fst (EclToEq (lam + m_dpsi m) be (m_se m) (m_ce m)) in
  let P := asin (hypot X Y * cos (a - om) / cos b) in
  if Rlt_bool P 0 then P + 2 * PI else P.
(** moon/moon.go:174-180; base/const.go:11 *)
Definition AU_km : R := 149597870.
Definition helio_moon (m : moon) (lam be D : R) (earth : @V87Planet R) : R * R :=
  let '(l0, _, R0) := ApparentVSOP87 earth (m_jde m) in
  let q := D / (R0 * AU_km) in (l0 + PI + q * (cos be * sin (l0 - lam)), q * be).
Definition moon_sun (m : moon) (lam be D : R) (earth : @V87Planet R) : R * R :=
  let '(lH, bH) := helio_moon m lam be D earth in lib m lH bH.
(** moon/moon.go:35-42 *)
Definition MoonPhysical (jde : R) (earth : @V87Planet R) : R * R * R * R * R :=
  let '(lam, be, D) := MoonPosition jde in
  let m := newMoon jde in
  let '(l, b) := lib m lam be in
  let P := moon_pa m lam be b in
  let '(l0, b0) := moon_sun m lam be D earth in (l, b, P, l0, b0).
(** moon/moon.go:217-222 *)
Definition SunAltitude (eta theta l0 b0 : R) : R :=
  asin (sin b0 * sin theta + cos b0 * cos theta * sin (PI / 2 - l0 + eta)).
(** moon/moon.go:245-249 *)
Definition srCorr (eta theta jde : R) (earth : @V87Planet R) : R :=
  let '(_, _, _, l0, b0) := MoonPhysical jde earth in
  AngleDeg (SunAltitude eta theta l0 b0) / (1219075 / 100000) / cos theta.
(** moon/moon.go:230-233, 241-244 *)
Definition MoonSunrise (eta theta jde : R) (earth : @V87Planet R) : R :=
  let jde1 := jde - srCorr eta theta jde earth in jde1 - srCorr eta theta jde1 earth.
Definition MoonSunset (eta theta jde : R) (earth : @V87Planet R) : R :=
  let jde1 := jde + srCorr eta theta jde earth in jde1 + srCorr eta theta jde1 earth.
