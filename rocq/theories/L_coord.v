(** Lemmas for package coord: every conversion is a rotation. *)
From Coq Require Import ZArith Reals Lra Psatz.
From Verif Require Import GoMath S_Sphere M_coord L_trig L_angle L_vec.
Local Open Scope R_scope.

Lemma atan2_scale c x y : 0 < c -> x <> 0 \/ y <> 0 ->
  sin (atan2 (c * y) (c * x)) = sin (atan2 y x) /\ cos (atan2 (c * y) (c * x)) = cos (atan2 y x).
Proof.
  intros Hc H. destruct (atan2_spec x y H) as [A B]. pose proof (hypot_gt0 x y H) as P.
  destruct (atan2_cs (c * x) (c * y) (c * hypot x y) (atan2 y x)) as [C S].
  - apply Rmult_lt_0_compat; assumption.
  - rewrite <- A at 1. ring.
  - rewrite <- B at 1. ring.
  - split; assumption.
Qed.

(** A direction computed as (atan2 Y X, asin Z), X and Y scaled by 1/c. *)
Lemma dir_frame c X Y Z lon : 0 < c -> c * X * (c * X) + c * Y * (c * Y) + Z * Z = 1 ->
  sin lon = sin (atan2 Y X) -> cos lon = cos (atan2 Y X) -> dir lon (asin Z) = mkvec (c * X) (c * Y) Z.
Proof.
  intros Hc H S C. apply dir_unit_vec; [exact H|]. intros N.
  assert (N' : X <> 0 \/ Y <> 0). { destruct N as [N|N]; [left|right]; intros E; apply N; rewrite E; ring. }
  destruct (atan2_scale c X Y Hc N') as [S' C']. rewrite S', C'. split; assumption.
Qed.

Lemma mkvec_eq x y z x' y' z' : x = x' -> y = y' -> z = z' -> mkvec x y z = mkvec x' y' z'.
Proof. intros -> -> ->. reflexivity. Qed.

(** Rotations preserve dot products. *)
Lemma app_dot m u v : rotation m -> dot (app (transpose m) u) (app (transpose m) v) = dot u v.
Proof.
  destruct m as [[a b c] [d e f] [g h i]]. unfold rotation, cross, dot. cbn [r1 r2 r3 vx vy vz]. intros (A & B & C & E).
  injection E as E1 E2 E3. destruct u as [x y z]. destruct v as [x' y' z'].
  unfold app, transpose, dot. cbn [r1 r2 r3 vx vy vz].
  assert (D : g * g + h * h + i * i = 1). { subst. nra. }
  assert (F : a * g + b * h + c * i = 0) by (subst; ring). assert (G : d * g + e * h + f * i = 0) by (subst; ring).
  clear E1 E2 E3.
  transitivity ((a * a + b * b + c * c) * (x * x') + (d * d + e * e + f * f) * (y * y') + (g * g + h * h + i * i) * (z * z')
    + (a * d + b * e + c * f) * (x * y' + y * x') + (a * g + b * h + c * i) * (x * z' + z * x') + (d * g + e * h + f * i) * (y * z' + z * y')); [ring|].
  rewrite A, B, C, D, F, G. ring.
Qed.

Lemma rot_x_rotation t : rotation (rot_x t).
Proof. pose proof (sc1 t). unfold rotation, rot_x, dot, cross. cbn [r1 r2 r3 vx vy vz]. repeat split; try lra. f_equal; ring. Qed.
Lemma rot_y_rotation t : rotation (rot_y t).
Proof. pose proof (sc1 t). unfold rotation, rot_y, dot, cross. cbn [r1 r2 r3 vx vy vz]. repeat split; try lra. f_equal; ring. Qed.
Lemma rot_z_rotation t : rotation (rot_z t).
Proof. pose proof (sc1 t). unfold rotation, rot_z, dot, cross. cbn [r1 r2 r3 vx vy vz]. repeat split; try lra. f_equal; try ring. lra. Qed.

(** ** Ecliptic *)
Lemma EqToEcl_dir ra dec eps : - (PI / 2) < dec < PI / 2 ->
  let '(lon, lat) := EqToEcl ra dec (sin eps) (cos eps) in
  - PI < lon <= PI /\ - (PI / 2) <= lat <= PI / 2 /\ dir lon lat = app (rot_x eps) (dir ra dec).
Proof.
  intros H. unfold EqToEcl. split; [apply atan2_bound|]. split; [apply asin_bound|].
  pose proof (cos_pos_lat dec H) as C. pose proof (sc1 ra) as R1. pose proof (sc1 dec) as D1. pose proof (sc1 eps) as E1.
  unfold dir at 2. unfold app, rot_x, dot. cbn [r1 r2 r3 vx vy vz].
  set (sr := sin ra) in *. set (cr := cos ra) in *. set (sd := sin dec) in *. set (cd := cos dec) in *. set (se := sin eps) in *. set (ce := cos eps) in *.
  assert (Ey : cd * (sr * ce + sd / cd * se) = cd * sr * ce + sd * se) by (field; lra).
  rewrite (dir_frame cd cr (sr * ce + sd / cd * se) (sd * ce - cd * se * sr)); [|exact C| |reflexivity|reflexivity].
  - rewrite Ey. apply mkvec_eq; ring.
  - rewrite Ey. transitivity (cd * cd * (cr * cr) + (cd * sr) * (cd * sr) * (se * se + ce * ce) + sd * sd * (se * se + ce * ce)); [ring|].
    rewrite E1. transitivity (cd * cd * (sr * sr + cr * cr) + sd * sd); [ring|]. rewrite R1. lra.
Qed.
Lemma EclToEq_dir lon lat eps : - (PI / 2) < lat < PI / 2 ->
  let '(ra, dec) := EclToEq lon lat (sin eps) (cos eps) in
  0 <= ra < 2 * PI /\ - (PI / 2) <= dec <= PI / 2 /\ dir ra dec = app (rot_x (- eps)) (dir lon lat).
Proof.
  intros H. unfold EclToEq. split; [apply RAFromRad_bound|]. split; [apply asin_bound|].
  pose proof (cos_pos_lat lat H) as C. pose proof (sc1 lon) as R1. pose proof (sc1 lat) as D1. pose proof (sc1 eps) as E1.
  unfold dir at 2. unfold app, rot_x, dot. cbn [r1 r2 r3 vx vy vz]. rewrite cos_neg, sin_neg.
  set (sr := sin lon) in *. set (cr := cos lon) in *. set (sd := sin lat) in *. set (cd := cos lat) in *. set (se := sin eps) in *. set (ce := cos eps) in *.
  assert (Ey : cd * (sr * ce - sd / cd * se) = cd * sr * ce - sd * se) by (field; lra).
  rewrite (dir_frame cd cr (sr * ce - sd / cd * se) (sd * ce + cd * se * sr)); [|exact C| |apply sin_RAFromRad|apply cos_RAFromRad].
  - rewrite Ey. apply mkvec_eq; ring.
  - rewrite Ey. transitivity (cd * cd * (cr * cr) + (cd * sr) * (cd * sr) * (se * se + ce * ce) + sd * sd * (se * se + ce * ce)); [ring|].
    rewrite E1. transitivity (cd * cd * (sr * sr + cr * cr) + sd * sd); [ring|]. rewrite R1. lra.
Qed.

Lemma rot_x_inv t v : app (rot_x (- t)) (app (rot_x t) v) = v /\ app (rot_x t) (app (rot_x (- t)) v) = v.
Proof.
  destruct v as [x y z]. unfold app, rot_x, dot. cbn [r1 r2 r3 vx vy vz]. rewrite cos_neg, sin_neg. pose proof (sc1 t) as S.
  set (s := sin t) in *. set (c := cos t) in *. split; apply mkvec_eq.
  - ring.
  - transitivity (y * (s * s + c * c)); [ring|rewrite S; ring].
  - transitivity (z * (s * s + c * c)); [ring|rewrite S; ring].
  - ring.
  - transitivity (y * (s * s + c * c)); [ring|rewrite S; ring].
  - transitivity (z * (s * s + c * c)); [ring|rewrite S; ring].
Qed.

Lemma Ecl_roundtrip ra dec eps : 0 <= ra < 2 * PI -> - (PI / 2) < dec < PI / 2 ->
  let '(lon, lat) := EqToEcl ra dec (sin eps) (cos eps) in
  - (PI / 2) < lat < PI / 2 -> EclToEq lon lat (sin eps) (cos eps) = (ra, dec).
Proof.
  intros Hr Hd. pose proof (EqToEcl_dir ra dec eps Hd) as H. destruct (EqToEcl ra dec (sin eps) (cos eps)) as [lon lat].
  destruct H as (_ & _ & E). intros Hl. pose proof (EclToEq_dir lon lat eps Hl) as H. destruct (EclToEq lon lat (sin eps) (cos eps)) as [ra' dec'].
  destruct H as (Hr' & Hd' & E'). rewrite E in E'. rewrite (proj1 (rot_x_inv eps (dir ra dec))) in E'.
  destruct (dir_inj ra dec ra' dec' Hd Hd' (eq_sym E')) as (A & S & C). f_equal; [|symmetry; exact A].
  apply (angle_eq_range ra' ra 0); [symmetry; exact S|symmetry; exact C|lra|lra].
Qed.
Lemma Ecl_roundtrip' lon lat eps : - PI < lon <= PI -> - (PI / 2) < lat < PI / 2 ->
  let '(ra, dec) := EclToEq lon lat (sin eps) (cos eps) in
  - (PI / 2) < dec < PI / 2 -> EqToEcl ra dec (sin eps) (cos eps) = (lon, lat).
Proof.
  intros Hr Hd. pose proof (EclToEq_dir lon lat eps Hd) as H. destruct (EclToEq lon lat (sin eps) (cos eps)) as [ra dec].
  destruct H as (_ & _ & E). intros Hl. pose proof (EqToEcl_dir ra dec eps Hl) as H. destruct (EqToEcl ra dec (sin eps) (cos eps)) as [lon' lat'].
  destruct H as (Hr' & Hd' & E'). rewrite E in E'. rewrite (proj2 (rot_x_inv eps (dir lon lat))) in E'.
  destruct (dir_inj lon lat lon' lat' Hd Hd' (eq_sym E')) as (A & S & C). f_equal; [|symmetry; exact A].
  apply (angle_eq_range' lon' lon (- PI)); [symmetry; exact S|symmetry; exact C|lra|lra].
Qed.

(** ** Horizontal *)
Lemma EqToHz_dir ra dec phi psi st : - (PI / 2) < dec < PI / 2 ->
  let '(A, h) := EqToHz ra dec phi psi st in
  - PI < A <= PI /\ - (PI / 2) <= h <= PI / 2 /\ dir A h = app (rot_y (PI / 2 - phi)) (dir (TimeRad st - psi - ra) dec).
Proof.
  intros H. unfold EqToHz. cbv zeta. set (HA := TimeRad st - psi - ra). split; [apply atan2_bound|]. split; [apply asin_bound|].
  pose proof (cos_pos_lat dec H) as C. pose proof (sc1 HA) as R1. pose proof (sc1 dec) as D1. pose proof (sc1 phi) as E1.
  unfold dir at 2. unfold app, rot_y, dot. cbn [r1 r2 r3 vx vy vz]. rewrite cos_shift, sin_shift.
  set (sr := sin HA) in *. set (cr := cos HA) in *. set (sd := sin dec) in *. set (cd := cos dec) in *. set (se := sin phi) in *. set (ce := cos phi) in *.
  assert (Ex : cd * (cr * se - sd / cd * ce) = cd * cr * se - sd * ce) by (field; lra).
  rewrite (dir_frame cd (cr * se - sd / cd * ce) sr (se * sd + ce * cd * cr)); [|exact C| |reflexivity|reflexivity].
  - rewrite Ex. apply mkvec_eq; ring.
  - rewrite Ex. transitivity (cd * cd * (sr * sr) + (cd * cr) * (cd * cr) * (se * se + ce * ce) + sd * sd * (se * se + ce * ce)); [ring|].
    rewrite E1. transitivity (cd * cd * (sr * sr + cr * cr) + sd * sd); [ring|]. rewrite R1. lra.
Qed.
Lemma HzToEq_dir A h phi psi st : - (PI / 2) < h < PI / 2 ->
  let '(ra, dec) := HzToEq A h phi psi st in
  0 <= ra < 2 * PI /\ - (PI / 2) <= dec <= PI / 2 /\ dir (TimeRad st - psi - ra) dec = app (rot_y (phi - PI / 2)) (dir A h).
Proof.
  intros H. unfold HzToEq. cbv zeta. split; [apply RAFromRad_bound|]. split; [apply asin_bound|].
  pose proof (cos_pos_lat h H) as C. pose proof (sc1 A) as R1. pose proof (sc1 h) as D1. pose proof (sc1 phi) as E1.
  unfold dir at 2. unfold app, rot_y, dot. cbn [r1 r2 r3 vx vy vz].
  replace (phi - PI / 2) with (- (PI / 2 - phi)) by ring. rewrite cos_neg, sin_neg, cos_shift, sin_shift.
  set (st' := TimeRad st - psi).
  set (sr := sin A) in *. set (cr := cos A) in *. set (sd := sin h) in *. set (cd := cos h) in *. set (se := sin phi) in *. set (ce := cos phi) in *.
  assert (Ex : cd * (cr * se + sd / cd * ce) = cd * cr * se + sd * ce) by (field; lra).
  rewrite (dir_frame cd (cr * se + sd / cd * ce) sr (se * sd - ce * cd * cr)); [|exact C| | |].
  - rewrite Ex. apply mkvec_eq; ring.
  - rewrite Ex. transitivity (cd * cd * (sr * sr) + (cd * cr) * (cd * cr) * (se * se + ce * ce) + sd * sd * (se * se + ce * ce)); [ring|].
    rewrite E1. transitivity (cd * cd * (sr * sr + cr * cr) + sd * sd); [ring|]. rewrite R1. lra.
  - set (H0 := atan2 _ _). rewrite sin_minus, cos_RAFromRad, sin_RAFromRad, <- sin_minus. f_equal. ring.
  - set (H0 := atan2 _ _). rewrite cos_minus, cos_RAFromRad, sin_RAFromRad, <- cos_minus. f_equal. ring.
Qed.
Lemma rot_y_inv t v : app (rot_y (- t)) (app (rot_y t) v) = v.
Proof.
  destruct v as [x y z]. unfold app, rot_y, dot. cbn [r1 r2 r3 vx vy vz]. rewrite cos_neg, sin_neg. pose proof (sc1 t) as S.
  set (s := sin t) in *. set (c := cos t) in *. apply mkvec_eq.
  - transitivity (x * (s * s + c * c)); [ring|rewrite S; ring].
  - ring.
  - transitivity (z * (s * s + c * c)); [ring|rewrite S; ring].
Qed.
Lemma Hz_roundtrip ra dec phi psi st : 0 <= ra < 2 * PI -> - (PI / 2) < dec < PI / 2 ->
  let '(A, h) := EqToHz ra dec phi psi st in
  - (PI / 2) < h < PI / 2 -> HzToEq A h phi psi st = (ra, dec).
Proof.
  intros Hr Hd. pose proof (EqToHz_dir ra dec phi psi st Hd) as H. destruct (EqToHz ra dec phi psi st) as [A h].
  destruct H as (_ & _ & E). intros Hl. pose proof (HzToEq_dir A h phi psi st Hl) as H. destruct (HzToEq A h phi psi st) as [ra' dec'].
  destruct H as (Hr' & Hd' & E'). rewrite E in E'. replace (phi - PI / 2) with (- (PI / 2 - phi)) in E' by ring. rewrite rot_y_inv in E'.
  destruct (dir_inj _ dec _ dec' Hd Hd' (eq_sym E')) as (B & S & C). f_equal; [|symmetry; exact B].
  set (T := TimeRad st - psi) in *. destruct (angle_eq _ _ S C) as [k K].
  apply (angle_eq_range ra' ra 0); [| |lra|lra].
  - replace ra' with (ra + IZR k * (2 * PI)) by lra. apply sin_Z.
  - replace ra' with (ra + IZR k * (2 * PI)) by lra. apply cos_Z.
Qed.
Lemma Hz_roundtrip' A h phi psi st : - PI < A <= PI -> - (PI / 2) < h < PI / 2 ->
  let '(ra, dec) := HzToEq A h phi psi st in
  - (PI / 2) < dec < PI / 2 -> EqToHz ra dec phi psi st = (A, h).
Proof.
  intros Hr Hd. pose proof (HzToEq_dir A h phi psi st Hd) as H. destruct (HzToEq A h phi psi st) as [ra dec].
  destruct H as (_ & _ & E). intros Hl. pose proof (EqToHz_dir ra dec phi psi st Hl) as H. destruct (EqToHz ra dec phi psi st) as [A' h'].
  destruct H as (Hr' & Hd' & E'). rewrite E in E'. replace (PI / 2 - phi) with (- (phi - PI / 2)) in E' by ring. rewrite rot_y_inv in E'.
  destruct (dir_inj _ h _ h' Hd Hd' (eq_sym E')) as (B & S & C). f_equal; [|symmetry; exact B].
  apply (angle_eq_range' A' A (- PI)); [symmetry; exact S|symmetry; exact C|lra|lra].
Qed.
(** The altitude formula. *)
Lemma EqToHz_alt ra dec phi psi st :
  sin (snd (EqToHz ra dec phi psi st)) = sin phi * sin dec + cos phi * cos dec * cos (TimeRad st - psi - ra).
Proof.
  unfold EqToHz. cbn [snd]. apply sin_asin. set (H := TimeRad st - psi - ra).
  replace (sin phi * sin dec + cos phi * cos dec * cos H) with (dot (dir H phi) (dir 0 dec)) by (rewrite dot_dir; rewrite Rminus_0_r; reflexivity).
  apply dot_bound.
Qed.

(** ** Galactic *)
(** Rotation from equatorial (1950) to galactic axes. *)
Definition gal_rotation (v : vec) : vec :=
  app (rot_z (- (33 * (PI / 180) + 3 * PI / 2))) (app (rot_y (PI / 2 - 274 / 10 * (PI / 180))) (app (rot_z (19225 / 100 * (PI / 180))) v)).
Definition gal_inverse (v : vec) : vec :=
  app (rot_z (- (19225 / 100 * (PI / 180)))) (app (rot_y (- (PI / 2 - 274 / 10 * (PI / 180)))) (app (rot_z (33 * (PI / 180) + 3 * PI / 2)) v)).

Lemma GN_RA : GalacticNorthRA = 19225 / 100 * (PI / 180).
Proof.
  unfold GalacticNorthRA, RAFromRad. rewrite PMod_small; [field|]. pose proof PI_RGT_0. split; lra.
Qed.
Lemma rot_z_dir t l b : app (rot_z t) (dir l b) = dir (l - t) b.
Proof. unfold app, rot_z, dot, dir. cbn [r1 r2 r3 vx vy vz]. rewrite cos_minus, sin_minus. apply mkvec_eq; ring. Qed.
Lemma rot_z_inv t v : app (rot_z (- t)) (app (rot_z t) v) = v.
Proof.
  destruct v as [x y z]. unfold app, rot_z, dot. cbn [r1 r2 r3 vx vy vz]. rewrite cos_neg, sin_neg. pose proof (sc1 t) as S.
  set (s := sin t) in *. set (c := cos t) in *. apply mkvec_eq.
  - transitivity (x * (s * s + c * c)); [ring|rewrite S; ring].
  - transitivity (y * (s * s + c * c)); [ring|rewrite S; ring].
  - ring.
Qed.

Lemma EqToGal_dir ra dec : - (PI / 2) < dec < PI / 2 ->
  let '(l, b) := EqToGal ra dec in
  0 <= l < 2 * PI /\ - (PI / 2) <= b <= PI / 2 /\ dir l b = gal_rotation (dir ra dec).
Proof.
  intros H. unfold EqToGal. cbv zeta. rewrite GN_RA. unfold GalacticNorthDec, Galactic0Lon, AngleFromDeg.
  split; [apply Mod1_bound|]. split; [apply asin_bound|]. unfold gal_rotation.
  rewrite rot_z_dir. set (g := 19225 / 100 * (PI / 180)). set (d := 274 / 10 * (PI / 180)). set (th := 33 * (PI / 180)).
  replace (15 / 10 * PI) with (3 * PI / 2) by field.
  pose proof (cos_pos_lat dec H) as C. pose proof (sc1 (g - ra)) as R1. pose proof (sc1 dec) as D1. pose proof (sc1 d) as E1.
  set (x := atan2 _ _).
  assert (F : dir (- x) (asin (sin dec * sin d + cos dec * cos d * cos (g - ra))) = app (rot_y (PI / 2 - d)) (dir (ra - g) dec)).
  { unfold dir at 2. unfold app, rot_y, dot. cbn [r1 r2 r3 vx vy vz]. rewrite cos_shift, sin_shift.
    replace (cos (ra - g)) with (cos (g - ra)) by (rewrite <- cos_neg; f_equal; ring).
    replace (sin (ra - g)) with (- sin (g - ra)) by (rewrite <- sin_neg; f_equal; ring).
    transitivity (let u := dir x (asin (sin dec * sin d + cos dec * cos d * cos (g - ra))) in mkvec (vx u) (- vy u) (vz u)).
    - unfold dir. cbn [vx vy vz]. rewrite cos_neg, sin_neg. apply mkvec_eq; ring.
    - cbv zeta. unfold x. set (sr := sin (g - ra)) in *. set (cr := cos (g - ra)) in *.
      set (sd := sin dec) in *. set (cd := cos dec) in *. set (se := sin d) in *. set (ce := cos d) in *.
      assert (Ex : cd * (cr * se - sd / cd * ce) = cd * cr * se - sd * ce) by (field; lra).
      rewrite (dir_frame cd (cr * se - sd / cd * ce) sr (sd * se + cd * ce * cr)); [|exact C| |reflexivity|reflexivity].
      + cbn [vx vy vz]. rewrite Ex. apply mkvec_eq; ring.
      + rewrite Ex. transitivity (cd * cd * (sr * sr) + (cd * cr) * (cd * cr) * (se * se + ce * ce) + sd * sd * (se * se + ce * ce)); [ring|].
        rewrite E1. transitivity (cd * cd * (sr * sr + cr * cr) + sd * sd); [ring|]. rewrite R1. lra. }
  rewrite <- F, rot_z_dir. unfold dir. rewrite cos_Mod1, sin_Mod1. replace (- x - - (th + 3 * PI / 2)) with (th + 3 * PI / 2 - x) by ring. reflexivity.
Qed.

Lemma GalToEq_dir l b : - (PI / 2) < b < PI / 2 ->
  let '(ra, dec) := GalToEq l b in
  0 <= ra < 2 * PI /\ - (PI / 2) <= dec <= PI / 2 /\ dir ra dec = gal_inverse (dir l b).
Proof.
  intros H. unfold GalToEq. cbv zeta. rewrite GN_RA. unfold GalacticNorthDec, Galactic0Lon, AngleFromDeg.
  split; [apply RAFromRad_bound|]. split; [apply asin_bound|]. unfold gal_inverse.
  rewrite rot_z_dir. set (g := 19225 / 100 * (PI / 180)). set (d := 274 / 10 * (PI / 180)). set (th := 33 * (PI / 180)).
  pose proof (cos_pos_lat b H) as C. pose proof (sc1 (l - th - PI / 2)) as R1. pose proof (sc1 b) as D1. pose proof (sc1 d) as E1.
  set (q := l - th - PI / 2) in *. set (y := atan2 _ _).
  assert (F : dir y (asin (sin b * sin d + cos b * cos d * cos q)) = app (rot_y (PI / 2 - d)) (dir q b)).
  { unfold dir at 2. unfold app, rot_y, dot. cbn [r1 r2 r3 vx vy vz]. rewrite cos_shift, sin_shift. unfold y.
    set (sr := sin q) in *. set (cr := cos q) in *.
    set (sd := sin b) in *. set (cd := cos b) in *. set (se := sin d) in *. set (ce := cos d) in *.
    assert (Ex : cd * (cr * se - sd / cd * ce) = cd * cr * se - sd * ce) by (field; lra).
    rewrite (dir_frame cd (cr * se - sd / cd * ce) sr (sd * se + cd * ce * cr)); [|exact C| |reflexivity|reflexivity].
    + rewrite Ex. apply mkvec_eq; ring.
    + rewrite Ex. transitivity (cd * cd * (sr * sr) + (cd * cr) * (cd * cr) * (se * se + ce * ce) + sd * sd * (se * se + ce * ce)); [ring|].
      rewrite E1. transitivity (cd * cd * (sr * sr + cr * cr) + sd * sd); [ring|]. rewrite R1. lra. }
  set (z := asin _) in *.
  assert (P : forall t v, app (rot_y (- t)) (mkvec (- vx v) (- vy v) (vz v)) = let w := app (rot_y t) v in mkvec (- vx w) (- vy w) (vz w)).
  { intros t [a b0 c]. unfold app, rot_y, dot. cbn [r1 r2 r3 vx vy vz]. rewrite cos_neg, sin_neg. apply mkvec_eq; ring. }
  assert (Q : forall a c, dir (a - PI) c = mkvec (- vx (dir a c)) (- vy (dir a c)) (vz (dir a c))).
  { intros a c. unfold dir. cbn [vx vy vz]. rewrite cos_minus, sin_minus, cos_PI, sin_PI. apply mkvec_eq; ring. }
  replace (l - (th + 3 * PI / 2)) with (q - PI) by (unfold q; field). rewrite Q, P, <- F. cbv zeta. rewrite <- Q, rot_z_dir.
  unfold dir. rewrite cos_RAFromRad, sin_RAFromRad. replace (y - PI - - g) with (y + g - PI) by ring. reflexivity.
Qed.

Lemma gal_inv1 v : gal_inverse (gal_rotation v) = v.
Proof.
  unfold gal_inverse, gal_rotation. set (a := 33 * (PI / 180) + 3 * PI / 2). 
  pose proof (rot_z_inv (- a) (app (rot_y (PI / 2 - 274 / 10 * (PI / 180))) (app (rot_z (19225 / 100 * (PI / 180))) v))) as E.
  rewrite Ropp_involutive in E. rewrite E, rot_y_inv, rot_z_inv. reflexivity.
Qed.
Lemma gal_inv2 v : gal_rotation (gal_inverse v) = v.
Proof.
  unfold gal_inverse, gal_rotation. set (a := 33 * (PI / 180) + 3 * PI / 2). set (t := PI / 2 - 274 / 10 * (PI / 180)). set (g := 19225 / 100 * (PI / 180)).
  pose proof (rot_z_inv (- g) (app (rot_y (- t)) (app (rot_z a) v))) as E. rewrite Ropp_involutive in E. rewrite E.
  pose proof (rot_y_inv (- t) (app (rot_z a) v)) as E2. rewrite Ropp_involutive in E2. rewrite E2. apply rot_z_inv.
Qed.

Lemma Gal_roundtrip ra dec : 0 <= ra < 2 * PI -> - (PI / 2) < dec < PI / 2 ->
  let '(l, b) := EqToGal ra dec in - (PI / 2) < b < PI / 2 -> GalToEq l b = (ra, dec).
Proof.
  intros Hr Hd. pose proof (EqToGal_dir ra dec Hd) as H. destruct (EqToGal ra dec) as [l b].
  destruct H as (_ & _ & E). intros Hl. pose proof (GalToEq_dir l b Hl) as H. destruct (GalToEq l b) as [ra' dec'].
  destruct H as (Hr' & Hd' & E'). rewrite E, gal_inv1 in E'.
  destruct (dir_inj _ dec _ dec' Hd Hd' (eq_sym E')) as (B & S & C). f_equal; [|symmetry; exact B].
  apply (angle_eq_range ra' ra 0); [symmetry; exact S|symmetry; exact C|lra|lra].
Qed.
Lemma Gal_roundtrip' l b : 0 <= l < 2 * PI -> - (PI / 2) < b < PI / 2 ->
  let '(ra, dec) := GalToEq l b in - (PI / 2) < dec < PI / 2 -> EqToGal ra dec = (l, b).
Proof.
  intros Hr Hd. pose proof (GalToEq_dir l b Hd) as H. destruct (GalToEq l b) as [ra dec].
  destruct H as (_ & _ & E). intros Hl. pose proof (EqToGal_dir ra dec Hl) as H. destruct (EqToGal ra dec) as [l' b'].
  destruct H as (Hr' & Hd' & E'). rewrite E, gal_inv2 in E'.
  destruct (dir_inj _ b _ b' Hd Hd' (eq_sym E')) as (B & S & C). f_equal; [|symmetry; exact B].
  apply (angle_eq_range l' l 0); [symmetry; exact S|symmetry; exact C|lra|lra].
Qed.
Lemma Gal_pole : snd (EqToGal (19225 / 100 * (PI / 180)) (274 / 10 * (PI / 180))) = PI / 2.
Proof.
  unfold EqToGal. cbn [snd]. rewrite GN_RA. unfold GalacticNorthDec, AngleFromDeg. rewrite Rminus_diag_eq, cos_0 by reflexivity.
  set (d := 274 / 10 * (PI / 180)). replace (sin d * sin d + cos d * cos d * 1) with 1 by (pose proof (sc1 d); lra).
  apply asin_1.
Qed.
(** Dot products are preserved. *)
Lemma rot_y_dot t u v : dot (app (rot_y t) u) (app (rot_y t) v) = dot u v.
Proof.
  destruct u as [a b c], v as [d e f]. unfold app, rot_y, dot. cbn [r1 r2 r3 vx vy vz]. pose proof (sc1 t) as S. set (s := sin t) in *. set (k := cos t) in *.
  transitivity ((s * s + k * k) * (a * d + c * f) + b * e); [ring|rewrite S; ring].
Qed.
Lemma rot_z_dot t u v : dot (app (rot_z t) u) (app (rot_z t) v) = dot u v.
Proof.
  destruct u as [a b c], v as [d e f]. unfold app, rot_z, dot. cbn [r1 r2 r3 vx vy vz]. pose proof (sc1 t) as S. set (s := sin t) in *. set (k := cos t) in *.
  transitivity ((s * s + k * k) * (a * d + b * e) + c * f); [ring|rewrite S; ring].
Qed.
Lemma rot_x_dot t u v : dot (app (rot_x t) u) (app (rot_x t) v) = dot u v.
Proof.
  destruct u as [a b c], v as [d e f]. unfold app, rot_x, dot. cbn [r1 r2 r3 vx vy vz]. pose proof (sc1 t) as S. set (s := sin t) in *. set (k := cos t) in *.
  transitivity ((s * s + k * k) * (b * e + c * f) + a * d); [ring|rewrite S; ring].
Qed.
Lemma gal_dot u v : dot (gal_rotation u) (gal_rotation v) = dot u v.
Proof. unfold gal_rotation. rewrite rot_z_dot, rot_y_dot, rot_z_dot. reflexivity. Qed.
Lemma Gal_isometry r1 d1 r2 d2 t : - (PI / 2) < d1 < PI / 2 -> - (PI / 2) < d2 < PI / 2 ->
  let '(l1, b1) := EqToGal r1 d1 in let '(l2, b2) := EqToGal r2 d2 in
  separation (dir r1 d1) (dir r2 d2) t <-> separation (dir l1 b1) (dir l2 b2) t.
Proof.
  intros H1 H2. pose proof (EqToGal_dir r1 d1 H1) as E1. pose proof (EqToGal_dir r2 d2 H2) as E2.
  destruct (EqToGal r1 d1), (EqToGal r2 d2). destruct E1 as (_ & _ & E1), E2 as (_ & _ & E2). rewrite E1, E2. unfold separation. rewrite gal_dot. tauto.
Qed.
Lemma EqToEcl_example : EqToEcl 0 0 (sin (PI / 4)) (cos (PI / 4)) = (0, 0).
Proof.
  unfold EqToEcl. rewrite sin_0, cos_0. f_equal.
  - replace (0 * cos (PI / 4) + 0 / 1 * sin (PI / 4)) with 0 by field. unfold atan2. destruct (Rlt_dec 0 1); [|lra].
    replace (0 / 1) with 0 by field. apply atan_0.
  - replace (0 * cos (PI / 4) - 1 * sin (PI / 4) * 0) with 0 by ring. apply asin_0.
Qed.
Lemma EqToHz_example : snd (EqToHz 0 (PI / 4) (PI / 2) 0 0) = PI / 4.
Proof.
  unfold EqToHz. cbn [snd]. rewrite sin_PI2, cos_PI2. rewrite Rmult_1_l, !Rmult_0_l, Rplus_0_r. pose proof PI_RGT_0. apply asin_sin. lra.
Qed.
Lemma range_example : - (PI / 2) < 0 < PI / 2 /\ 0 <= 0 < 2 * PI.
Proof. pose proof PI_RGT_0. lra. Qed.
