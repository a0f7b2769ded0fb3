(** Model of package apparent (v3/apparent/apparent.go) over the real numbers: the functions of
    M_precess completed with the nutation of M_solar and the Ron-Vondrak expression. *)
From Coq Require Import ZArith Reals List.
From Verif Require Import GoFloat GoMath M_base M_precess M_solar.
Import ListNotations.
Local Open Scope R_scope.

(** apparent/apparent.go:98-113: L2 ... L8, Lp, D, Mp, F *)
Definition rv_args (T : R) : list R :=
  [31761467 / 10000000 + 10213285546 / 10000000 * T; 17534703 / 10000000 + 6283075849 / 10000000 * T;
   62034809 / 10000000 + 3340612431 / 10000000 * T; 5995465 / 10000000 + 529690965 / 10000000 * T;
   8740168 / 10000000 + 213299095 / 10000000 * T; 54812939 / 10000000 + 74781599 / 10000000 * T;
   53118863 / 10000000 + 38133036 / 10000000 * T; 38103444 / 10000000 + 83996847337 / 10000000 * T;
   51984667 / 10000000 + 77713771486 / 10000000 * T; 23555559 / 10000000 + 83286914289 / 10000000 * T;
   16279052 / 10000000 + 84334661601 / 10000000 * T].

(** apparent/apparent.go:138-289: the closures of rvTerm as rows: the multiples of the arguments in A,
    and for x, y and z the numbers (a, a', b, b') of (a + a' T) sin A + (b + b' T) cos A. *)
Definition rvq := (Z * Z * Z * Z)%type.
Definition rvrow := (list Z * (rvq * rvq * rvq))%type.
Definition rvTerm : list rvrow := ([
  ([0; 1; 0; 0; 0; 0; 0; 0; 0; 0; 0], (((-1719914), (-2), (-25), 0), (25, (-13), 1578089, 156), (10, 32, 684185, (-358))));
  ([0; 2; 0; 0; 0; 0; 0; 0; 0; 0; 0], ((6434, 141, 28007, (-107)), (25697, (-95), (-5904), (-130)), (11141, (-48), (-2559), (-55))));
  ([0; 0; 0; 1; 0; 0; 0; 0; 0; 0; 0], ((715, 0, 0, 0), (6, 0, (-657), 0), ((-15), 0, (-282), 0)));
  ([0; 0; 0; 0; 0; 0; 0; 1; 0; 0; 0], ((715, 0, 0, 0), (0, 0, (-656), 0), (0, 0, (-285), 0)));
  ([0; 3; 0; 0; 0; 0; 0; 0; 0; 0; 0], ((486, (-5), (-236), (-4)), ((-216), (-4), (-446), 5), ((-94), 0, (-193), 0)));
  ([0; 0; 0; 0; 1; 0; 0; 0; 0; 0; 0], ((159, 0, 0, 0), (2, 0, (-147), 0), ((-6), 0, (-61), 0)));
  ([0; 0; 0; 0; 0; 0; 0; 0; 0; 0; 1], ((0, 0, 0, 0), (0, 0, 26, 0), (0, 0, (-59), 0)));
  ([0; 0; 0; 0; 0; 0; 0; 1; 0; 1; 0], ((39, 0, 0, 0), (0, 0, (-36), 0), (0, 0, (-16), 0)));
  ([0; 0; 0; 2; 0; 0; 0; 0; 0; 0; 0], ((33, 0, (-10), 0), ((-9), 0, (-30), 0), ((-5), 0, (-13), 0)));
  ([0; 2; 0; (-1); 0; 0; 0; 0; 0; 0; 0], ((31, 0, 1, 0), (1, 0, (-28), 0), (0, 0, (-12), 0)));
  ([0; 3; (-8); 3; 0; 0; 0; 0; 0; 0; 0], ((8, 0, (-28), 0), (25, 0, 8, 0), (11, 0, 3, 0)));
  ([0; 5; (-8); 3; 0; 0; 0; 0; 0; 0; 0], ((8, 0, (-28), 0), ((-25), 0, (-8), 0), ((-11), 0, (-3), 0)));
  ([2; (-1); 0; 0; 0; 0; 0; 0; 0; 0; 0], ((21, 0, 0, 0), (0, 0, (-19), 0), (0, 0, (-8), 0)));
  ([1; 0; 0; 0; 0; 0; 0; 0; 0; 0; 0], (((-19), 0, 0, 0), (0, 0, 17, 0), (0, 0, 8, 0)));
  ([0; 0; 0; 0; 0; 1; 0; 0; 0; 0; 0], ((17, 0, 0, 0), (0, 0, (-16), 0), (0, 0, (-7), 0)));
  ([0; 1; 0; (-2); 0; 0; 0; 0; 0; 0; 0], ((16, 0, 0, 0), (0, 0, 15, 0), (1, 0, 7, 0)));
  ([0; 0; 0; 0; 0; 0; 1; 0; 0; 0; 0], ((16, 0, 0, 0), (1, 0, (-15), 0), ((-3), 0, (-6), 0)));
  ([0; 1; 0; 1; 0; 0; 0; 0; 0; 0; 0], ((11, 0, (-1), 0), ((-1), 0, (-10), 0), ((-1), 0, (-5), 0)));
  ([2; (-2); 0; 0; 0; 0; 0; 0; 0; 0; 0], ((0, 0, (-11), 0), ((-10), 0, 0, 0), ((-4), 0, 0, 0)));
  ([0; 1; 0; (-1); 0; 0; 0; 0; 0; 0; 0], (((-11), 0, (-2), 0), ((-2), 0, 9, 0), ((-1), 0, 4, 0)));
  ([0; 4; 0; 0; 0; 0; 0; 0; 0; 0; 0], (((-7), 0, (-8), 0), ((-8), 0, 6, 0), ((-3), 0, 3, 0)));
  ([0; 3; 0; (-2); 0; 0; 0; 0; 0; 0; 0], (((-10), 0, 0, 0), (0, 0, 9, 0), (0, 0, 4, 0)));
  ([1; (-2); 0; 0; 0; 0; 0; 0; 0; 0; 0], (((-9), 0, 0, 0), (0, 0, (-9), 0), (0, 0, (-4), 0)));
  ([2; (-3); 0; 0; 0; 0; 0; 0; 0; 0; 0], (((-9), 0, 0, 0), (0, 0, (-8), 0), (0, 0, (-4), 0)));
  ([0; 0; 0; 0; 2; 0; 0; 0; 0; 0; 0], ((0, 0, (-9), 0), ((-8), 0, 0, 0), ((-3), 0, 0, 0)));
  ([2; (-4); 0; 0; 0; 0; 0; 0; 0; 0; 0], ((0, 0, (-9), 0), (8, 0, 0, 0), (3, 0, 0, 0)));
  ([0; 3; (-2); 0; 0; 0; 0; 0; 0; 0; 0], ((8, 0, 0, 0), (0, 0, (-8), 0), (0, 0, (-3), 0)));
  ([0; 0; 0; 0; 0; 0; 0; 1; 2; (-1); 0], ((8, 0, 0, 0), (0, 0, (-7), 0), (0, 0, (-3), 0)));
  ([8; (-12); 0; 0; 0; 0; 0; 0; 0; 0; 0], (((-4), 0, (-7), 0), ((-6), 0, 4, 0), ((-3), 0, 2, 0)));
  ([8; (-14); 0; 0; 0; 0; 0; 0; 0; 0; 0], (((-4), 0, (-7), 0), (6, 0, (-4), 0), (3, 0, (-2), 0)));
  ([0; 0; 2; 0; 0; 0; 0; 0; 0; 0; 0], (((-6), 0, (-5), 0), ((-4), 0, 5, 0), ((-2), 0, 2, 0)));
  ([3; (-4); 0; 0; 0; 0; 0; 0; 0; 0; 0], (((-1), 0, (-1), 0), ((-2), 0, (-7), 0), (1, 0, (-4), 0)));
  ([0; 2; 0; (-2); 0; 0; 0; 0; 0; 0; 0], ((4, 0, (-6), 0), ((-5), 0, (-4), 0), ((-2), 0, (-2), 0)));
  ([3; (-3); 0; 0; 0; 0; 0; 0; 0; 0; 0], ((0, 0, (-7), 0), ((-6), 0, 0, 0), ((-3), 0, 0, 0)));
  ([0; 2; (-2); 0; 0; 0; 0; 0; 0; 0; 0], ((5, 0, (-5), 0), ((-4), 0, (-5), 0), ((-2), 0, (-2), 0)));
  ([0; 0; 0; 0; 0; 0; 0; 1; (-2); 0; 0], ((5, 0, 0, 0), (0, 0, (-5), 0), (0, 0, (-2), 0)))])%Z.
Definition rv_arg (m : list Z) (L : list R) : R := fold_right (fun p s => IZR (fst p) * snd p + s) 0 (combine m L).
Definition rv_coord (T s c : R) (q : rvq) : R := let '(a, a', b, b') := q in (IZR a + IZR a' * T) * s + (IZR b + IZR b' * T) * c.
Definition rv_value (T : R) (row : rvrow) : R * R * R :=
  let '(m, (x, y, z)) := row in
  let A := rv_arg m (rv_args T) in
  (rv_coord T (sin A) (cos A) x, rv_coord T (sin A) (cos A) y, rv_coord T (sin A) (cos A) z).
(** apparent/apparent.go:114-121: the loop runs from the last term to the first. *)
Definition rv_sum (T : R) : R * R * R :=
  fold_left (fun s row => let '(x, y, z) := s in let '(dx, dy, dz) := rv_value T row in (x + dx, y + dy, z + dz)) (rev rvTerm) (0, 0, 0).
(** apparent/apparent.go:98-128 *)
Definition AberrationRonVondrak (ra dec jd : R) : R * R :=
  let '(X, Y, Z) := rv_sum (J2000Century (fl := RFlt) jd) in RonVondrakCorr X Y Z ra dec.

(** apparent/apparent.go:22-32 *)
Definition NutationEq (ra dec jd : R) : R * R := let '(dpsi, deps) := Nutation jd in NutationCorr dpsi deps ra dec jd.
(** apparent/apparent.go:86-94 *)
Definition ApparentPosition (eq : Equatorial) (epochFrom epochTo ma md : R) : Equatorial :=
  apparentPosition NutationEq Aberration eq epochFrom epochTo ma md.
(** apparent/apparent.go:300-313 *)
Definition PositionRonVondrak (eq : Equatorial) (epochTo ma md : R) : Equatorial :=
  positionRonVondrak NutationEq AberrationRonVondrak eq epochTo ma md.
