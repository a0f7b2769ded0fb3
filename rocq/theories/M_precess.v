(** Models of packages precess, elementequinox and of the corrections of package
    apparent (v3/precess/precess.go, v3/elementequinox/elementequinox.go,
    v3/apparent/apparent.go), on exact reals (see GoMath).

    Pointers.  A pointer is an address (a natural number), the memory a total
    function from addresses to structs.  The pointer forms [..._ptr] execute the
    reads and writes of the Go statements in program order, so that they show the
    effect of passing the same struct twice. *)
From Coq Require Import ZArith Reals List Lra Bool Arith.
From Flocq Require Import Core.
From Verif Require Import GoFloat GoMath M_base M_angle M_coord.
Import ListNotations.
Local Open Scope R_scope.

(** base/math.go:27-35 on exact reals, for a non-empty coefficient list. *)
Definition HornerR (x : R) (c : list R) : R :=
  match Horner (fl := RFlt) x c with Some v => v | None => 0 end.

(** coord/coord.go:38-41 and 36-39: a pair of angles; memory. *)
Record Equatorial := mkEq { eqRA : R; eqDec : R }.
Record Ecliptic := mkEcl { eclLon : R; eclLat : R }.
Definition memory (A : Type) := nat -> A.
Definition store {A} (m : memory A) (p : nat) (v : A) : memory A := fun q => if Nat.eqb q p then v else m q.
Definition setRA (m : memory Equatorial) p v := store m p (mkEq v (eqDec (m p))).
Definition setDec (m : memory Equatorial) p v := store m p (mkEq (eqRA (m p)) v).
Definition setLon (m : memory Ecliptic) p v := store m p (mkEcl v (eclLat (m p))).
Definition setLat (m : memory Ecliptic) p v := store m p (mkEcl (eclLon (m p)) v).

(** ** precess *)

(** precess/precess.go:97-98 *)
Definition d_ : R := PI / 180.
Definition s_ : R := d_ / 3600.

(** unit.HourAngleFromSec: seconds of time. *)
Definition HourAngleFromSec (s : R) : R := s * (PI / 43200).

(** precess/precess.go:67-73 *)
Definition mn (epochFrom epochTo : R) : R * R * R :=
  let T := (epochTo - epochFrom) * (1 / 100) in
  (HourAngleFromSec (307496 / 100000 + 186 / 100000 * T),
   HourAngleFromSec (133621 / 100000 - 57 / 100000 * T),
   AngleFromSec (200431 / 10000 - 85 / 10000 * T)).

(** precess/precess.go:56-64 *)
Definition ApproxAnnualPrecession (eq : Equatorial) (epochFrom epochTo : R) : R * R :=
  let '(m, na, nd) := mn epochFrom epochTo in
  (m + na * (sin (eqRA eq) * tan (eqDec eq)), nd * cos (eqRA eq)).

(** precess/precess.go:80-86 *)
Definition ApproxPosition_ptr (mem : memory Equatorial) (f t : nat) (epochFrom epochTo ma md : R) : memory Equatorial :=
  let '(da, dd) := ApproxAnnualPrecession (mem f) epochFrom epochTo in
  let dy := epochTo - epochFrom in
  let mem1 := setRA mem t (RAAdd (eqRA (mem f)) ((da + ma) * dy)) in
  setDec mem1 t (eqDec (mem1 f) + (dd + md) * dy).
Definition ApproxPosition (eq : Equatorial) (epochFrom epochTo ma md : R) : Equatorial :=
  let '(da, dd) := ApproxAnnualPrecession eq epochFrom epochTo in
  let dy := epochTo - epochFrom in
  mkEq (RAAdd (eqRA eq) ((da + ma) * dy)) (eqDec eq + (dd + md) * dy).

(** precess/precess.go:103-113, scaled by s. *)
Definition scaled (l : list R) : list R := map (fun x => x * s_) l.
Definition zetaT : list R := scaled [23062181 / 10000; 139656 / 100000; - (139 / 1000000)].
Definition zT : list R := scaled [23062181 / 10000; 139656 / 100000; - (139 / 1000000)].
Definition thetaT : list R := scaled [20043109 / 10000; - (8533 / 10000); - (217 / 1000000)].
Definition zetat : list R := scaled [23062181 / 10000; 30188 / 100000; 17998 / 1000000].
Definition zt : list R := scaled [23062181 / 10000; 109468 / 100000; 18203 / 1000000].
Definition thetat : list R := scaled [20043109 / 10000; - (42665 / 100000); - (41833 / 1000000)].

(** precess/precess.go:91-95.  The angle theta is kept instead of its sine and cosine. *)
Record Precessor := mkPrecessor { pzeta : R; pz : R; ptheta : R }.

(** precess/precess.go:117-148 *)
Definition NewPrecessor (epochFrom epochTo : R) : Precessor :=
  let '(zetaC, zC, thetaC) :=
    if Req_bool epochFrom 2000 then (zetat, zt, thetat)
    else
      let T := (epochFrom - 2000) * (1 / 100) in
      ([HornerR T zetaT; 30188 / 100000 * s_ - 344 / 1000000 * s_ * T; 17998 / 1000000 * s_],
       [HornerR T zT; 109468 / 100000 * s_ + 66 / 1000000 * s_ * T; 18203 / 1000000 * s_],
       [HornerR T thetaT; - (42665 / 100000) * s_ - 217 / 1000000 * s_ * T; - (41833 / 1000000) * s_]) in
  let t := (epochTo - epochFrom) * (1 / 100) in
  mkPrecessor (HornerR t zetaC * t) (HornerR t zC * t) (HornerR t thetaC * t).

(** The declination (latitude) of precess/precess.go:162-169 and 250-257. *)
Definition poleSafe (A B C : R) : R :=
  if Rlt_bool (Rabs C) CosSmallAngle then asin C
  else let r := acos (hypot A B) in if Rlt_bool C 0 then - r else r.

(** precess/precess.go:154-171 *)
Definition Precess (p : Precessor) (eq : Equatorial) : Equatorial :=
  let sd := sin (eqDec eq) in let cd := cos (eqDec eq) in
  let sa := sin (eqRA eq + pzeta p) in let ca := cos (eqRA eq + pzeta p) in
  let st := sin (ptheta p) in let ct := cos (ptheta p) in
  let A := cd * sa in
  let B := ct * cd * ca - st * sd in
  let C := st * cd * ca + ct * sd in
  mkEq (RAFromRad (atan2 A B + pz p)) (poleSafe A B C).
Definition Precess_ptr (p : Precessor) (mem : memory Equatorial) (f t : nat) : memory Equatorial :=
  let sd := sin (eqDec (mem f)) in let cd := cos (eqDec (mem f)) in
  let sa := sin (eqRA (mem f) + pzeta p) in let ca := cos (eqRA (mem f) + pzeta p) in
  let st := sin (ptheta p) in let ct := cos (ptheta p) in
  let A := cd * sa in
  let B := ct * cd * ca - st * sd in
  let C := st * cd * ca + ct * sd in
  let mem1 := setRA mem t (RAFromRad (atan2 A B + pz p)) in
  if Rlt_bool (Rabs C) CosSmallAngle then setDec mem1 t (asin C)
  else
    let mem2 := setDec mem1 t (acos (hypot A B)) in
    if Rlt_bool C 0 then setDec mem2 t (- eqDec (mem2 t)) else mem2.

(** precess/precess.go:181-187 *)
Definition Position (eq : Equatorial) (epochFrom epochTo ma md : R) : Equatorial :=
  let t := epochTo - epochFrom in
  Precess (NewPrecessor epochFrom epochTo) (mkEq (RAFromRad (eqRA eq + ma * t)) (eqDec eq + md * t)).
Definition Position_ptr (mem : memory Equatorial) (f t : nat) (epochFrom epochTo ma md : R) : memory Equatorial :=
  let p := NewPrecessor epochFrom epochTo in
  let y := epochTo - epochFrom in
  let mem1 := setRA mem t (RAFromRad (eqRA (mem f) + ma * y)) in
  let mem2 := setDec mem1 t (eqDec (mem1 f) + md * y) in
  Precess_ptr p mem2 t t.

(** precess/precess.go:199-209 *)
Definition etaT : list R := scaled [470029 / 10000; - (6603 / 100000); 598 / 1000000].
Definition piT : list R := [174876384 / 1000000 * d_; 32894789 / 10000 * s_; 60622 / 100000 * s_].
Definition pT : list R := scaled [50290966 / 10000; 222226 / 100000; - (42 / 1000000)].
Definition etat : list R := scaled [470029 / 10000; - (3302 / 100000); 60 / 1000000].
Definition pit : list R := [174876384 / 1000000 * d_; - (8698089 / 10000) * s_; 3536 / 100000 * s_].
Definition pt : list R := scaled [50290966 / 10000; 111113 / 100000; - (6 / 1000000)].

(** precess/precess.go:193-197.  The angle eta is kept instead of its sine and cosine. *)
Record EclipticPrecessor := mkEclP { epeta : R; eppi : R; epp : R }.

(** precess/precess.go:213-241 *)
Definition NewEclipticPrecessor (epochFrom epochTo : R) : EclipticPrecessor :=
  let '(etaC, piC, pC) :=
    if Req_bool epochFrom 2000 then (etat, pit, pt)
    else
      let T := (epochFrom - 2000) * (1 / 100) in
      ([HornerR T etaT; - (3302 / 100000) * s_ + 598 / 1000000 * s_ * T; 60 / 1000000 * s_],
       [HornerR T piT; - (8698089 / 10000) * s_ - 50491 / 100000 * s_ * T; 3536 / 100000 * s_],
       [HornerR T pT; 111113 / 100000 * s_ - 42 / 1000000 * s_ * T; - (6 / 1000000) * s_]) in
  let t := (epochTo - epochFrom) * (1 / 100) in
  mkEclP (HornerR t etaC * t) (HornerR t piC) (HornerR t pC * t).

(** precess/precess.go:247-264 *)
Definition EclPrecess (p : EclipticPrecessor) (ecl : Ecliptic) : Ecliptic :=
  let sb := sin (eclLat ecl) in let cb := cos (eclLat ecl) in
  let sd := sin (eppi p - eclLon ecl) in let cd := cos (eppi p - eclLon ecl) in
  let se := sin (epeta p) in let ce := cos (epeta p) in
  let A := ce * cb * sd - se * sb in
  let B := cb * cd in
  let C := ce * sb + se * cb * sd in
  mkEcl (epp p + eppi p - atan2 A B) (poleSafe A B C).
Definition EclPrecess_ptr (p : EclipticPrecessor) (mem : memory Ecliptic) (f t : nat) : memory Ecliptic :=
  let sb := sin (eclLat (mem f)) in let cb := cos (eclLat (mem f)) in
  let sd := sin (eppi p - eclLon (mem f)) in let cd := cos (eppi p - eclLon (mem f)) in
  let se := sin (epeta p) in let ce := cos (epeta p) in
  let A := ce * cb * sd - se * sb in
  let B := cb * cd in
  let C := ce * sb + se * cb * sd in
  let mem1 := setLon mem t (epp p + eppi p - atan2 A B) in
  if Rlt_bool (Rabs C) CosSmallAngle then setLat mem1 t (asin C)
  else
    let mem2 := setLat mem1 t (acos (hypot A B)) in
    if Rlt_bool C 0 then setLat mem2 t (- eclLat (mem2 t)) else mem2.

(** nutation/nutation.go:69-76; unit.FromSexaSec(' ', 23, 26, 21.448). *)
Definition MeanObliquity (jde : R) : R :=
  AngleFromSec (HornerR (J2000Century (fl := RFlt) jde)
    [(23 * 60 + 26) * 60 + 21448 / 1000; - (46815 / 1000); - (59 / 100000); 1813 / 1000000]).

(** precess/precess.go:306-316.  The obliquity is passed as an angle. *)
Definition properMotionToEcl (eps ma md : R) (pos : Ecliptic) : R * R :=
  let se := sin eps in let ce := cos eps in
  let '(a, d) := EclToEq (eclLon pos) (eclLat pos) se ce in
  let cb := cos (eclLat pos) in
  ((md * (se * cos a) + ma * (cos d * (ce * cos d + se * sin d * sin a))) / (cb * cb),
   (md * (ce * cos d + se * sin d * sin a) - ma * (se * cos a * cos d)) / cb).
Definition eqProperMotionToEcl (ma md epoch : R) (pos : Ecliptic) : R * R :=
  properMotionToEcl (MeanObliquity (JulianYearToJDE (fl := RFlt) epoch)) ma md pos.

(** precess/precess.go:294-304 *)
Definition EclipticPosition (ecl : Ecliptic) (epochFrom epochTo ma md : R) : Ecliptic :=
  let p := NewEclipticPrecessor epochFrom epochTo in
  if negb (Req_bool ma 0) || negb (Req_bool md 0) then
    let '(ml, mb) := eqProperMotionToEcl ma md epochFrom ecl in
    let t := epochTo - epochFrom in
    EclPrecess p (mkEcl (eclLon ecl + ml * t) (eclLat ecl + mb * t))
  else EclPrecess p ecl.
Definition EclipticPosition_ptr (mem : memory Ecliptic) (f t : nat) (epochFrom epochTo ma md : R) : memory Ecliptic :=
  let p := NewEclipticPrecessor epochFrom epochTo in
  let mem1 := store mem t (mem f) in
  let mem4 :=
    if negb (Req_bool ma 0) || negb (Req_bool md 0) then
      let '(ml, mb) := eqProperMotionToEcl ma md epochFrom (mem1 f) in
      let y := epochTo - epochFrom in
      let mem2 := setLon mem1 t (eclLon (mem1 t) + ml * y) in
      setLat mem2 t (eclLat (mem2 t) + mb * y)
    else mem1 in
  EclPrecess_ptr p mem4 t t.

(** precess/precess.go:327-345 *)
Definition ProperMotion3D (eq : Equatorial) (epochFrom epochTo r mr ma md : R) : Equatorial :=
  let sa := sin (eqRA eq) in let ca := cos (eqRA eq) in
  let sd := sin (eqDec eq) in let cd := cos (eqDec eq) in
  let x := r * cd * ca in
  let y := r * cd * sa in
  let z := r * sd in
  let mrr := mr / r in
  let zmd := z * md in
  let mx := x * mrr - zmd * ca - y * ma in
  let my := y * mrr - zmd * sa + x * ma in
  let mz := z * mrr + r * md * cd in
  let t := epochTo - epochFrom in
  let xp := x + t * mx in
  let yp := y + t * my in
  let zp := z + t * mz in
  mkEq (RAFromRad (atan2 yp xp)) (atan2 zp (hypot xp yp)).
Definition ProperMotion3D_ptr (mem : memory Equatorial) (f tp : nat) (epochFrom epochTo r mr ma md : R) : memory Equatorial :=
  let sa := sin (eqRA (mem f)) in let ca := cos (eqRA (mem f)) in
  let sd := sin (eqDec (mem f)) in let cd := cos (eqDec (mem f)) in
  let x := r * cd * ca in
  let y := r * cd * sa in
  let z := r * sd in
  let mrr := mr / r in
  let zmd := z * md in
  let mx := x * mrr - zmd * ca - y * ma in
  let my := y * mrr - zmd * sa + x * ma in
  let mz := z * mrr + r * md * cd in
  let t := epochTo - epochFrom in
  let xp := x + t * mx in
  let yp := y + t * my in
  let zp := z + t * mz in
  let mem1 := setRA mem tp (RAFromRad (atan2 yp xp)) in
  setDec mem1 tp (atan2 zp (hypot xp yp)).

(** ** elementequinox *)

(** elementequinox/elementequinox.go:20-24 *)
Record Elements := mkElements { Inc : R; Peri : R; Node : R }.
Definition setInc (m : memory Elements) p v := store m p (mkElements v (Peri (m p)) (Node (m p))).
Definition setPeri (m : memory Elements) p v := store m p (mkElements (Inc (m p)) v (Node (m p))).
Definition setNode (m : memory Elements) p v := store m p (mkElements (Inc (m p)) (Peri (m p)) v).

(** precess/precess.go:270-283 *)
Definition ReduceElements (p : EclipticPrecessor) (e : Elements) : Elements :=
  let psi := eppi p + epp p in
  let si := sin (Inc e) in let ci := cos (Inc e) in
  let sn := sin (Node e - eppi p) in let cn := cos (Node e - eppi p) in
  let se := sin (epeta p) in let ce := cos (epeta p) in
  mkElements
    (acos (ci * ce + si * se * cn))
    (Peri e + atan2 (- se * sn) (si * ce - ci * se * cn))
    (psi + atan2 (si * sn) (ce * si * cn - se * ci)).
Definition ReduceElements_ptr (p : EclipticPrecessor) (mem : memory Elements) (f t : nat) : memory Elements :=
  let psi := eppi p + epp p in
  let si := sin (Inc (mem f)) in let ci := cos (Inc (mem f)) in
  let sn := sin (Node (mem f) - eppi p) in let cn := cos (Node (mem f) - eppi p) in
  let se := sin (epeta p) in let ce := cos (epeta p) in
  let mem1 := setInc mem t (acos (ci * ce + si * se * cn)) in
  let mem2 := setNode mem1 t (psi + atan2 (si * sn) (ce * si * cn - se * ci)) in
  setPeri mem2 t (Peri (mem2 f) + atan2 (- se * sn) (si * ce - ci * se * cn)).

(** elementequinox/elementequinox.go:28-45 *)
Definition B1950_S : R := 1139788 / 10000000000.
Definition B1950_C : R := 9999999935 / 10000000000.
Definition ReduceB1950ToJ2000 (e : Elements) : Elements :=
  let W := Node e - AngleFromDeg (174298782 / 1000000) in
  let si := sin (Inc e) in let ci := cos (Inc e) in
  let sW := sin W in let cW := cos W in
  let A := si * sW in
  let B := B1950_C * si * cW - B1950_S * ci in
  mkElements (asin (hypot A B))
    (Mod1 (Peri e + atan2 (- B1950_S * sW) (B1950_C * si - B1950_S * ci * cW)))
    (Mod1 (AngleFromDeg (174997194 / 1000000) + atan2 A B)).
Definition ReduceB1950ToJ2000_ptr (mem : memory Elements) (f t : nat) : memory Elements :=
  let W := Node (mem f) - AngleFromDeg (174298782 / 1000000) in
  let si := sin (Inc (mem f)) in let ci := cos (Inc (mem f)) in
  let sW := sin W in let cW := cos W in
  let A := si * sW in
  let B := B1950_C * si * cW - B1950_S * ci in
  let mem1 := setInc mem t (asin (hypot A B)) in
  let mem2 := setNode mem1 t (Mod1 (AngleFromDeg (174997194 / 1000000) + atan2 A B)) in
  setPeri mem2 t (Mod1 (Peri (mem2 f) + atan2 (- B1950_S * sW) (B1950_C * si - B1950_S * ci * cW))).

(** elementequinox/elementequinox.go:47-51 *)
Definition FK_Lp : R := AngleFromDeg (450001688 / 100000000).
Definition FK_L : R := AngleFromDeg (519856209 / 100000000).
Definition FK_J : R := AngleFromDeg (651966 / 100000000).
(** elementequinox/elementequinox.go:53-64 *)
Definition ReduceB1950FK4ToJ2000FK5 (e : Elements) : Elements :=
  let W := FK_L + Node e in
  let si := sin (Inc e) in let ci := cos (Inc e) in
  let sJ := sin FK_J in let cJ := cos FK_J in
  let sW := sin W in let cW := cos W in
  mkElements (acos (ci * cJ - si * sJ * cW))
    (Mod1 (Peri e + atan2 (sJ * sW) (si * cJ + ci * sJ * cW)))
    (Mod1 (atan2 (si * sW) (ci * sJ + si * cJ * cW) - FK_Lp)).
Definition ReduceB1950FK4ToJ2000FK5_ptr (mem : memory Elements) (f t : nat) : memory Elements :=
  let W := FK_L + Node (mem f) in
  let si := sin (Inc (mem f)) in let ci := cos (Inc (mem f)) in
  let sJ := sin FK_J in let cJ := cos FK_J in
  let sW := sin W in let cW := cos W in
  let mem1 := setInc mem t (acos (ci * cJ - si * sJ * cW)) in
  let mem2 := setNode mem1 t (Mod1 (atan2 (si * sW) (ci * sJ + si * cJ * cW) - FK_Lp)) in
  setPeri mem2 t (Mod1 (Peri (mem2 f) + atan2 (sJ * sW) (si * cJ + ci * sJ * cW))).

(** ** apparent *)

(** solar/solar.go:54-57 and 37-46 *)
Definition MeanAnomaly (T : R) : R := AngleFromDeg (HornerR T [35752911 / 100000; 3599905029 / 100000; - (1537 / 10000000)]).
Definition solarTrue (T : R) : R * R :=
  let L0 := AngleFromDeg (HornerR T [28046646 / 100000; 3600076983 / 100000; 3032 / 10000000]) in
  let M := MeanAnomaly T in
  let C := AngleFromDeg (HornerR T [1914602 / 1000000; - (4817 / 1000000); - (14 / 1000000)] * sin M
             + (19993 / 1000000 - 101 / 1000000 * T) * sin (M * 2) + 289 / 1000000 * sin (M * 3)) in
  (Mod1 (L0 + C), Mod1 (M + C)).
(** solar/solar.go:66-69 *)
Definition solarEccentricity (T : R) : R := HornerR T [16708634 / 1000000000; - (42037 / 1000000000); - (1267 / 10000000000)].

(** apparent/apparent.go:36-41 *)
Definition kappa : R := AngleFromSec (2049552 / 100000).
Definition perihelion (T : R) : R := AngleFromDeg (HornerR T [10293735 / 100000; 171946 / 100000; 46 / 100000]).

(** apparent/apparent.go:22-32.  The values of nutation.Nutation are the
    arguments [dpsi] and [deps]: see M_apparent. *)
Definition NutationCorr (dpsi deps ra dec jd : R) : R * R :=
  let eps := MeanObliquity jd in
  let se := sin eps in let ce := cos eps in
  let sa := sin ra in let ca := cos ra in let td := tan dec in
  ((ce + se * sa * td) * dpsi - ca * td * deps, dpsi * (se * ca) + deps * sa).

(** apparent/apparent.go:44-56 *)
Definition EclipticAberration (lon lat jd : R) : R * R :=
  let T := J2000Century (fl := RFlt) jd in
  let s := fst (solarTrue T) in
  let e := solarEccentricity T in
  let p := perihelion T in
  let sb := sin lat in let cb := cos lat in
  (kappa * ((e * cos (p - lon) - cos (s - lon)) / cb),
   - (kappa * (sb * (sin (s - lon) - e * sin (p - lon))))).

(** apparent/apparent.go:60-79 *)
Definition Aberration (ra dec jd : R) : R * R :=
  let eps := MeanObliquity jd in
  let T := J2000Century (fl := RFlt) jd in
  let s := fst (solarTrue T) in
  let e := solarEccentricity T in
  let p := perihelion T in
  let sa := sin ra in let ca := cos ra in
  let sd := sin dec in let cd := cos dec in
  let ss := sin s in let cs := cos s in
  let sp := sin p in let cp := cos p in
  let ce := cos eps in let te := tan eps in
  let q1 := ca * ce in
  let q2 := ce * (te * cd - sa * sd) in
  let q3 := ca * sd in
  (kappa * (e * (q1 * cp + sa * sp) - (q1 * cs + sa * ss)) / cd,
   kappa * (e * (cp * q2 + sp * q3) - (cs * q2 + ss * q3))).

(** apparent/apparent.go:98-130, given the sums Xp, Yp, Zp of the 36 terms of
    the Ron-Vondrak expression (see M_apparent). *)
Definition rvC : R := 17314463350.
Definition RonVondrakCorr (Xp Yp Zp ra dec : R) : R * R :=
  let sa := sin ra in let ca := cos ra in
  let sd := sin dec in let cd := cos dec in
  ((Yp * ca - Xp * sa) / (rvC * cd), - ((Xp * ca + Yp * sa) * sd - Zp * cd) / rvC).

(** apparent/apparent.go:86-94; [nut] and [abr] are the two correction functions
    (Nutation and Aberration) at the Julian day of epochTo. *)
Definition apparentPosition (nut abr : R -> R -> R -> R * R) (eq : Equatorial) (epochFrom epochTo ma md : R) : Equatorial :=
  let q := Position eq epochFrom epochTo ma md in
  let jd := JulianYearToJDE (fl := RFlt) epochTo in
  let '(da1, dd1) := nut (eqRA q) (eqDec q) jd in
  let '(da2, dd2) := abr (eqRA q) (eqDec q) jd in
  mkEq (RAAdd (eqRA q) (da1 + da2)) (eqDec q + (dd1 + dd2)).
Definition apparentPosition_ptr (nut abr : R -> R -> R -> R * R) (mem : memory Equatorial) (f t : nat)
    (epochFrom epochTo ma md : R) : memory Equatorial :=
  let mem1 := Position_ptr mem f t epochFrom epochTo ma md in
  let jd := JulianYearToJDE (fl := RFlt) epochTo in
  let '(da1, dd1) := nut (eqRA (mem1 t)) (eqDec (mem1 t)) jd in
  let '(da2, dd2) := abr (eqRA (mem1 t)) (eqDec (mem1 t)) jd in
  let mem2 := setRA mem1 t (RAAdd (eqRA (mem1 t)) (da1 + da2)) in
  setDec mem2 t (eqDec (mem2 t) + (dd1 + dd2)).

(** apparent/apparent.go:300-313; [nut] is Nutation and [abr] AberrationRonVondrak. *)
Definition positionRonVondrak (nut abr : R -> R -> R -> R * R) (eq : Equatorial) (epochTo ma md : R) : Equatorial :=
  let t := epochTo - 2000 in
  let a1 := RAAdd (eqRA eq) (ma * t) in
  let d1 := eqDec eq + md * t in
  let jd := JulianYearToJDE (fl := RFlt) epochTo in
  let '(da, dd) := abr a1 d1 jd in
  let q := Position (mkEq (RAAdd a1 da) (d1 + dd)) 2000 epochTo 0 0 in
  let '(da1, dd1) := nut (eqRA q) (eqDec q) jd in
  mkEq (RAAdd (eqRA q) da1) (eqDec q + dd1).
Definition positionRonVondrak_ptr (nut abr : R -> R -> R -> R * R) (mem : memory Equatorial) (f tp : nat)
    (epochTo ma md : R) : memory Equatorial :=
  let t := epochTo - 2000 in
  let mem1 := setRA mem tp (RAAdd (eqRA (mem f)) (ma * t)) in
  let mem2 := setDec mem1 tp (eqDec (mem1 f) + md * t) in
  let jd := JulianYearToJDE (fl := RFlt) epochTo in
  let '(da, dd) := abr (eqRA (mem2 tp)) (eqDec (mem2 tp)) jd in
  let mem3 := setRA mem2 tp (RAAdd (eqRA (mem2 tp)) da) in
  let mem4 := setDec mem3 tp (eqDec (mem3 tp) + dd) in
  let mem5 := Position_ptr mem4 tp tp 2000 epochTo 0 0 in
  let '(da1, dd1) := nut (eqRA (mem5 tp)) (eqDec (mem5 tp)) jd in
  let mem6 := setRA mem5 tp (RAAdd (eqRA (mem5 tp)) da1) in
  setDec mem6 tp (eqDec (mem6 tp) + dd1).
