(** Model of package jupitermoons: /repo/v3/jupitermoons/jupitermoons.go.  Over the reals.  None is a
    panic (of planetelements). *)
From Coq Require Import ZArith Reals List.
From Verif Require Import GoFloat GoMath M_base M_vsop M_solar M_physical M_planetelements.
Import ListNotations.
Local Open Scope R_scope.

(** ** Low accuracy *)
(** jupitermoons/jupitermoons.go:25-47; the geometry of Sun, Earth and Jupiter and the declination of the Earth *)
Record jm_geo := mkjmg { g_B : R; g_sV : R; g_K : R; g_R : R; g_r : R; g_D : R; g_psi : R; g_lam : R; g_DE : R }.
Definition jm_geometry (jde : R) : jm_geo :=
  let d := jde - 2451545 in
  let p := PI / 180 in
  let V := 172.74 * p + 0.00111588 * p * d in
  let M := 357.529 * p + 0.9856003 * p * d in
  let sV := sin V in
  let N := 20.02 * p + 0.0830853 * p * d + 0.329 * p * sV in
  let J := 66.115 * p + 0.9025179 * p * d - 0.329 * p * sV in
  let A := 1.915 * p * sin M + 0.02 * p * sin (2 * M) in
  let B := 5.555 * p * sin N + 0.168 * p * sin (2 * N) in
  let K := J + A - B in
  let R0 := 1.00014 - 0.01671 * cos M - 0.00014 * cos (2 * M) in
  let r := 5.20872 - 0.25208 * cos N - 0.00611 * cos (2 * N) in
  let D := sqrt (r * r + R0 * R0 - 2 * r * R0 * cos K) in
  let psi := asin (R0 / D * sin K) in
  let lam := 34.35 * p + 0.083091 * p * d + 0.329 * p * sV + B in
  let DS := 3.12 * p * sin (lam + 42.8 * p) in
  let DE := DS - 2.22 * p * sin psi * cos (lam + 22 * p) - 1.3 * p * (r - D) / D * sin (lam - 100.5 * p) in
  mkjmg B sV K R0 r D psi lam DE.
(** jupitermoons/jupitermoons.go:48-52: u1..u4 *)
Definition jm_u (jde : R) : R * R * R * R :=
  let g := jm_geometry jde in let p := PI / 180 in let dd := jde - 2451545 - g_D g / 173 in
  (163.8069 * p + 203.4058646 * p * dd + g_psi g - g_B g, 358.414 * p + 101.2916335 * p * dd + g_psi g - g_B g,
   5.7176 * p + 50.234518 * p * dd + g_psi g - g_B g, 224.8092 * p + 21.48798 * p * dd + g_psi g - g_B g).
(** jupitermoons/jupitermoons.go:53-66: the corrected angles u+c and distances r of the four moons *)
Definition jm_polar (jde : R) : list (R * R) :=
  let g := jm_geometry jde in let p := PI / 180 in let dd := jde - 2451545 - g_D g / 173 in
  let '(u1, u2, u3, u4) := jm_u jde in
  let G := 331.18 * p + 50.310482 * p * dd in let H := 87.45 * p + 21.569231 * p * dd in
  [(u1 + 0.473 * p * sin (2 * (u1 - u2)), 5.9057 - 0.0244 * cos (2 * (u1 - u2)));
   (u2 + 1.065 * p * sin (2 * (u2 - u3)), 9.3966 - 0.0882 * cos (2 * (u2 - u3)));
   (u3 + 0.165 * p * sin G, 14.9883 - 0.0216 * cos G);
   (u4 + 0.843 * p * sin H, 26.3627 - 0.1939 * cos H)].
(** jupitermoons/jupitermoons.go:67-72.  The four results are a list. *)
Definition JupiterPositions (jde : R) : list (R * R) :=
  let sDE := sin (g_DE (jm_geometry jde)) in
  map (fun ur : R * R => let '(u, r) := ur in (r * sin u, - r * cos u * sDE)) (jm_polar jde).

(** ** Theory E5 *)
(** jupitermoons/jupitermoons.go:106-125.  The constant e_Pi is a field. *)
Record e5 := mke5 { e_l1 : R; e_l2 : R; e_l3 : R; e_l4 : R; e_p1 : R; e_p2 : R; e_p3 : R; e_p4 : R;
  e_w1 : R; e_w2 : R; e_w3 : R; e_w4 : R; e_Phi : R; e_psi : R; e_G : R; e_Gp : R; e_Pi : R }.
Definition e5_args (t : R) : e5 :=
  let p := PI / 180 in
  let Gam := 0.33033 * p * sin (163.679 * p + 0.0010512 * p * t) + 0.03439 * p * sin (34.486 * p - 0.0161731 * p * t) in
  mke5 (106.07719 * p + 203.48895579 * p * t) (175.73161 * p + 101.374724735 * p * t) (120.55883 * p + 50.317609207 * p * t) (84.44459 * p + 21.571071177 * p * t)
    (97.0881 * p + 0.16138586 * p * t) (154.8663 * p + 0.04726307 * p * t) (188.184 * p + 0.00712734 * p * t) (335.2868 * p + 0.00184 * p * t)
    (312.3346 * p - 0.13279386 * p * t) (100.4411 * p - 0.03263064 * p * t) (119.1942 * p - 0.00717703 * p * t) (322.6186 * p - 0.00175934 * p * t)
    (199.6766 * p + 0.1737919 * p * t) (316.5182 * p - 0.00000208 * p * t) (30.23756 * p + 0.0830925701 * p * t + Gam) (31.97853 * p + 0.0334597339 * p * t) (13.469942 * p).
(** The sums of sines and cosines: amplitude and argument of each term, in the order of the source;
    amplitudes of the longitudes in units of 1e-5 degrees, the others in units of 1e-7. *)
(** jupitermoons/jupitermoons.go:127-147 *)
Definition e5_S1 (q : e5) : list (Z * R) := [
  (47259%Z, 2 * (e_l1 q - e_l2 q));
  ((-3478)%Z, e_p3 q - e_p4 q);
  (1081%Z, e_l2 q - 2 * e_l3 q + e_p3 q);
  (738%Z, e_Phi q);
  (713%Z, e_l2 q - 2 * e_l3 q + e_p2 q);
  ((-674)%Z, e_p1 q + e_p3 q - 2 * e_Pi q - 2 * e_G q);
  (666%Z, e_l2 q - 2 * e_l3 q + e_p4 q);
  (445%Z, e_l1 q - e_p3 q);
  ((-354)%Z, e_l1 q - e_l2 q);
  ((-317)%Z, 2 * e_psi q - 2 * e_Pi q);
  (265%Z, e_l1 q - e_p4 q);
  ((-186)%Z, e_G q);
  (162%Z, e_p2 q - e_p3 q);
  (158%Z, 4 * (e_l1 q - e_l2 q));
  ((-155)%Z, e_l1 q - e_l3 q);
  ((-138)%Z, e_psi q + e_w3 q - 2 * e_Pi q - 2 * e_G q);
  ((-115)%Z, 2 * (e_l1 q - 2 * e_l2 q + e_w2 q));
  (89%Z, e_p2 q - e_p4 q);
  (85%Z, e_l1 q + e_p3 q - 2 * e_Pi q - 2 * e_G q);
  (83%Z, e_w2 q - e_w3 q);
  (53%Z, e_psi q - e_w2 q)].
(** jupitermoons/jupitermoons.go:148-184 *)
Definition e5_S2 (q : e5) : list (Z * R) := [
  (106476%Z, 2 * (e_l2 q - e_l3 q));
  (4256%Z, e_l1 q - 2 * e_l2 q + e_p3 q);
  (3581%Z, e_l2 q - e_p3 q);
  (2395%Z, e_l1 q - 2 * e_l2 q + e_p4 q);
  (1984%Z, e_l2 q - e_p4 q);
  ((-1778)%Z, e_Phi q);
  (1654%Z, e_l2 q - e_p2 q);
  (1334%Z, e_l2 q - 2 * e_l3 q + e_p2 q);
  (1294%Z, e_p3 q - e_p4 q);
  ((-1142)%Z, e_l2 q - e_l3 q);
  ((-1057)%Z, e_G q);
  ((-775)%Z, 2 * (e_psi q - e_Pi q));
  (524%Z, 2 * (e_l1 q - e_l2 q));
  ((-460)%Z, e_l1 q - e_l3 q);
  (316%Z, e_psi q - 2 * e_G q + e_w3 q - 2 * e_Pi q);
  ((-203)%Z, e_p1 q + e_p3 q - 2 * e_Pi q - 2 * e_G q);
  (146%Z, e_psi q - e_w3 q);
  ((-145)%Z, 2 * e_G q);
  (125%Z, e_psi q - e_w4 q);
  ((-115)%Z, e_l1 q - 2 * e_l3 q + e_p3 q);
  ((-94)%Z, 2 * (e_l2 q - e_w2 q));
  (86%Z, 2 * (e_l1 q - 2 * e_l2 q + e_w2 q));
  ((-86)%Z, 5 * e_Gp q - 2 * e_G q + 52225 / 1000 * deg);
  ((-78)%Z, e_l2 q - e_l4 q);
  ((-64)%Z, 3 * e_l3 q - 7 * e_l4 q + 4 * e_p4 q);
  (64%Z, e_p1 q - e_p4 q);
  ((-63)%Z, e_l1 q - 2 * e_l3 q + e_p4 q);
  (58%Z, e_w3 q - e_w4 q);
  (56%Z, 2 * (e_psi q - e_Pi q - e_G q));
  (56%Z, 2 * (e_l2 q - e_l4 q));
  (55%Z, 2 * (e_l1 q - e_l3 q));
  (52%Z, 3 * e_l3 q - 7 * e_l4 q + e_p3 q + 3 * e_p4 q);
  ((-43)%Z, e_l1 q - e_p3 q);
  (41%Z, 5 * (e_l2 q - e_l3 q));
  (41%Z, e_p4 q - e_Pi q);
  (32%Z, e_w2 q - e_w3 q);
  (32%Z, 2 * (e_l3 q - e_G q - e_Pi q))].
(** jupitermoons/jupitermoons.go:185-227 *)
Definition e5_S3 (q : e5) : list (Z * R) := [
  (16490%Z, e_l3 q - e_p3 q);
  (9081%Z, e_l3 q - e_p4 q);
  ((-6907)%Z, e_l2 q - e_l3 q);
  (3784%Z, e_p3 q - e_p4 q);
  (1846%Z, 2 * (e_l3 q - e_l4 q));
  ((-1340)%Z, e_G q);
  ((-1014)%Z, 2 * (e_psi q - e_Pi q));
  (704%Z, e_l2 q - 2 * e_l3 q + e_p3 q);
  ((-620)%Z, e_l2 q - 2 * e_l3 q + e_p2 q);
  ((-541)%Z, e_l3 q - e_l4 q);
  (381%Z, e_l2 q - 2 * e_l3 q + e_p4 q);
  (235%Z, e_psi q - e_w3 q);
  (198%Z, e_psi q - e_w4 q);
  (176%Z, e_Phi q);
  (130%Z, 3 * (e_l3 q - e_l4 q));
  (125%Z, e_l1 q - e_l3 q);
  ((-119)%Z, 5 * e_Gp q - 2 * e_G q + 52225 / 1000 * deg);
  (109%Z, e_l1 q - e_l2 q);
  ((-100)%Z, 3 * e_l3 q - 7 * e_l4 q + 4 * e_p4 q);
  (91%Z, e_w3 q - e_w4 q);
  (80%Z, 3 * e_l3 q - 7 * e_l4 q + e_p3 q + 3 * e_p4 q);
  ((-75)%Z, 2 * e_l2 q - 3 * e_l3 q + e_p3 q);
  (72%Z, e_p1 q + e_p3 q - 2 * e_Pi q - 2 * e_G q);
  (69%Z, e_p4 q - e_Pi q);
  ((-58)%Z, 2 * e_l3 q - 3 * e_l4 q + e_p4 q);
  ((-57)%Z, e_l3 q - 2 * e_l4 q + e_p4 q);
  (56%Z, e_l3 q + e_p3 q - 2 * e_Pi q - 2 * e_G q);
  ((-52)%Z, e_l2 q - 2 * e_l3 q + e_p1 q);
  ((-50)%Z, e_p2 q - e_p3 q);
  (48%Z, e_l3 q - 2 * e_l4 q + e_p3 q);
  ((-45)%Z, 2 * e_l2 q - 3 * e_l3 q + e_p4 q);
  ((-41)%Z, e_p2 q - e_p4 q);
  ((-38)%Z, 2 * e_G q);
  ((-37)%Z, e_p3 q - e_p4 q + e_w3 q - e_w4 q);
  ((-32)%Z, 3 * e_l3 q - 7 * e_l4 q + 2 * e_p3 q + 2 * e_p4 q);
  (30%Z, 4 * (e_l3 q - e_l4 q));
  (29%Z, e_l3 q + e_p4 q - 2 * e_Pi q - 2 * e_G q);
  ((-28)%Z, e_w3 q + e_psi q - 2 * e_Pi q - 2 * e_G q);
  (26%Z, e_l3 q - e_Pi q - e_G q);
  (24%Z, e_l2 q - 3 * e_l3 q + 2 * e_l4 q);
  (21%Z, 2 * (e_l3 q - e_Pi q - e_G q));
  ((-21)%Z, e_l3 q - e_p2 q);
  (17%Z, 2 * (e_l3 q - e_p3 q))].
(** jupitermoons/jupitermoons.go:228-277 *)
Definition e5_S4 (q : e5) : list (Z * R) := [
  (84287%Z, e_l4 q - e_p4 q);
  (3431%Z, e_p4 q - e_p3 q);
  ((-3305)%Z, 2 * (e_psi q - e_Pi q));
  ((-3211)%Z, e_G q);
  ((-1862)%Z, e_l4 q - e_p3 q);
  (1186%Z, e_psi q - e_w4 q);
  (623%Z, e_l4 q + e_p4 q - 2 * e_G q - 2 * e_Pi q);
  (387%Z, 2 * (e_l4 q - e_p4 q));
  ((-284)%Z, 5 * e_Gp q - 2 * e_G q + 52225 / 1000 * deg);
  ((-234)%Z, 2 * (e_psi q - e_p4 q));
  ((-223)%Z, e_l3 q - e_l4 q);
  ((-208)%Z, e_l4 q - e_Pi q);
  (178%Z, e_psi q + e_w4 q - 2 * e_p4 q);
  (134%Z, e_p4 q - e_Pi q);
  (125%Z, 2 * (e_l4 q - e_G q - e_Pi q));
  ((-117)%Z, 2 * e_G q);
  ((-112)%Z, 2 * (e_l3 q - e_l4 q));
  (107%Z, 3 * e_l3 q - 7 * e_l4 q + 4 * e_p4 q);
  (102%Z, e_l4 q - e_G q - e_Pi q);
  (96%Z, 2 * e_l4 q - e_psi q - e_w4 q);
  (87%Z, 2 * (e_psi q - e_w4 q));
  ((-85)%Z, 3 * e_l3 q - 7 * e_l4 q + e_p3 q + 3 * e_p4 q);
  (85%Z, e_l3 q - 2 * e_l4 q + e_p4 q);
  ((-81)%Z, 2 * (e_l4 q - e_psi q));
  (71%Z, e_l4 q + e_p4 q - 2 * e_Pi q - 3 * e_G q);
  (61%Z, e_l1 q - e_l4 q);
  ((-56)%Z, e_psi q - e_w3 q);
  ((-54)%Z, e_l3 q - 2 * e_l4 q + e_p3 q);
  (51%Z, e_l2 q - e_l4 q);
  (42%Z, 2 * (e_psi q - e_G q - e_Pi q));
  (39%Z, 2 * (e_p4 q - e_w4 q));
  (36%Z, e_psi q + e_Pi q - e_p4 q - e_w4 q);
  (35%Z, 2 * e_Gp q - e_G q + 18837 / 100 * deg);
  ((-35)%Z, e_l4 q - e_p4 q + 2 * e_Pi q - 2 * e_psi q);
  ((-32)%Z, e_l4 q + e_p4 q - 2 * e_Pi q - e_G q);
  (30%Z, 2 * e_Gp q - 2 * e_G q + 14915 / 100 * deg);
  (29%Z, 3 * e_l3 q - 7 * e_l4 q + 2 * e_p3 q + 2 * e_p4 q);
  (28%Z, e_l4 q - e_p4 q + 2 * e_psi q - 2 * e_Pi q);
  ((-28)%Z, 2 * (e_l4 q - e_w4 q));
  ((-27)%Z, e_p3 q - e_p4 q + e_w3 q - e_w4 q);
  ((-26)%Z, 5 * e_Gp q - 3 * e_G q + 18837 / 100 * deg);
  (25%Z, e_w4 q - e_w3 q);
  ((-25)%Z, e_l2 q - 3 * e_l3 q + 2 * e_l4 q);
  ((-23)%Z, 3 * (e_l3 q - e_l4 q));
  (21%Z, 2 * e_l4 q - 2 * e_Pi q - 3 * e_G q);
  ((-21)%Z, 2 * e_l3 q - 3 * e_l4 q + e_p4 q);
  (19%Z, e_l4 q - e_p4 q - e_G q);
  ((-19)%Z, 2 * e_l4 q - e_p3 q - e_p4 q);
  ((-18)%Z, e_l4 q - e_p4 q + e_G q);
  ((-16)%Z, e_l4 q + e_p3 q - 2 * e_Pi q - 2 * e_G q)].
(** jupitermoons/jupitermoons.go:291-297 *)
Definition e5_B1 (q : e5) (L S0 : R) : list (Z * R) := [
  (6393%Z, L - e_w1 q);
  (1825%Z, L - e_w2 q);
  (329%Z, L - e_w3 q);
  ((-311)%Z, L - e_psi q);
  (93%Z, L - e_w4 q);
  (75%Z, 3 * L - 4 * e_l2 q - 19927 / 10000 * S0 + e_w2 q);
  (46%Z, L + e_psi q - 2 * e_Pi q - 2 * e_G q)].
(** jupitermoons/jupitermoons.go:298-306 *)
Definition e5_B2 (q : e5) (L S0 : R) : list (Z * R) := [
  (81004%Z, L - e_w2 q);
  (4512%Z, L - e_w3 q);
  ((-3284)%Z, L - e_psi q);
  (1160%Z, L - e_w4 q);
  (272%Z, e_l1 q - 2 * e_l3 q + 10146 / 10000 * S0 + e_w2 q);
  ((-144)%Z, L - e_w1 q);
  (143%Z, L + e_psi q - 2 * e_Pi q - 2 * e_G q);
  (35%Z, L - e_psi q + e_G q);
  ((-28)%Z, e_l1 q - 2 * e_l3 q + 10146 / 10000 * S0 + e_w3 q)].
(** jupitermoons/jupitermoons.go:307-317 *)
Definition e5_B3 (q : e5) (L S0 : R) : list (Z * R) := [
  (32402%Z, L - e_w3 q);
  ((-16911)%Z, L - e_psi q);
  (6847%Z, L - e_w4 q);
  ((-2797)%Z, L - e_w2 q);
  (321%Z, L + e_psi q - 2 * e_Pi q - 2 * e_G q);
  (51%Z, L - e_psi q + e_G q);
  ((-45)%Z, L - e_psi q - e_G q);
  ((-45)%Z, L + e_psi q - 2 * e_Pi q);
  (37%Z, L + e_psi q - 2 * e_Pi q - 3 * e_G q);
  (30%Z, 2 * e_l2 q - 3 * L + 403 / 100 * S0 + e_w2 q);
  ((-21)%Z, 2 * e_l2 q - 3 * L + 403 / 100 * S0 + e_w3 q)].
(** jupitermoons/jupitermoons.go:318-325 *)
Definition e5_B4 (q : e5) (L S0 : R) : list (Z * R) := [
  ((-76579)%Z, L - e_psi q);
  (44134%Z, L - e_w4 q);
  ((-5112)%Z, L - e_w3 q);
  (773%Z, L + e_psi q - 2 * e_Pi q - 2 * e_G q);
  (104%Z, L - e_psi q + e_G q);
  ((-102)%Z, L - e_psi q - e_G q);
  (88%Z, L + e_psi q - 2 * e_Pi q - 3 * e_G q);
  ((-38)%Z, L + e_psi q - 2 * e_Pi q - e_G q)].
(** jupitermoons/jupitermoons.go:328-335 *)
Definition e5_R1 (q : e5) : list (Z * R) := [
  ((-41339)%Z, 2 * (e_l1 q - e_l2 q));
  ((-387)%Z, e_l1 q - e_p3 q);
  ((-214)%Z, e_l1 q - e_p4 q);
  (170%Z, e_l1 q - e_l2 q);
  ((-131)%Z, 4 * (e_l1 q - e_l2 q));
  (106%Z, e_l1 q - e_l3 q);
  ((-66)%Z, e_l1 q + e_p3 q - 2 * e_Pi q - 2 * e_G q)].
(** jupitermoons/jupitermoons.go:336-347 *)
Definition e5_R2 (q : e5) : list (Z * R) := [
  (93848%Z, e_l1 q - e_l2 q);
  ((-3116)%Z, e_l2 q - e_p3 q);
  ((-1744)%Z, e_l2 q - e_p4 q);
  ((-1442)%Z, e_l2 q - e_p2 q);
  (553%Z, e_l2 q - e_l3 q);
  (523%Z, e_l1 q - e_l3 q);
  ((-290)%Z, 2 * (e_l1 q - e_l2 q));
  (164%Z, 2 * (e_l2 q - e_w2 q));
  (107%Z, e_l1 q - 2 * e_l3 q + e_p3 q);
  ((-102)%Z, e_l2 q - e_p1 q);
  ((-91)%Z, 2 * (e_l1 q - e_l3 q))].
(** jupitermoons/jupitermoons.go:348-358 *)
Definition e5_R3 (q : e5) : list (Z * R) := [
  ((-14388)%Z, e_l3 q - e_p3 q);
  ((-7917)%Z, e_l3 q - e_p4 q);
  (6342%Z, e_l2 q - e_l3 q);
  ((-1761)%Z, 2 * (e_l3 q - e_l4 q));
  (294%Z, e_l3 q - e_l4 q);
  ((-156)%Z, 3 * (e_l3 q - e_l4 q));
  (156%Z, e_l1 q - e_l3 q);
  ((-153)%Z, e_l1 q - e_l2 q);
  (70%Z, 2 * e_l2 q - 3 * e_l3 q + e_p3 q);
  ((-51)%Z, e_l3 q + e_p3 q - 2 * e_Pi q - 2 * e_G q)].
(** jupitermoons/jupitermoons.go:359-375 *)
Definition e5_R4 (q : e5) : list (Z * R) := [
  ((-73546)%Z, e_l4 q - e_p4 q);
  (1621%Z, e_l4 q - e_p3 q);
  (974%Z, e_l3 q - e_l4 q);
  ((-543)%Z, e_l4 q + e_p4 q - 2 * e_Pi q - 2 * e_G q);
  ((-271)%Z, 2 * (e_l4 q - e_p4 q));
  (182%Z, e_l4 q - e_Pi q);
  (177%Z, 2 * (e_l3 q - e_l4 q));
  ((-167)%Z, 2 * e_l4 q - e_psi q - e_w4 q);
  (167%Z, e_psi q - e_w4 q);
  ((-155)%Z, 2 * (e_l4 q - e_Pi q - e_G q));
  (142%Z, 2 * (e_l4 q - e_psi q));
  (105%Z, e_l1 q - e_l4 q);
  (92%Z, e_l2 q - e_l4 q);
  ((-89)%Z, e_l4 q - e_Pi q - e_G q);
  ((-62)%Z, e_l4 q + e_p4 q - 2 * e_Pi q - 3 * e_G q);
  (48%Z, 2 * (e_l4 q - e_w4 q))].
Definition e5_sum (k : R) (f : R -> R) (l : list (Z * R)) : R := fold_left (fun s (ca : Z * R) => let '(c, a) := ca in s + IZR c / k * f a) l 0.
(** jupitermoons/jupitermoons.go:127-281, 288-376: longitude, latitude, distance of a moon, from its mean longitude l *)
Definition e5_moon (q : e5) (l : R) (S0 : list (Z * R)) (B0 : e5 -> R -> R -> list (Z * R)) (a : R) (R0 : list (Z * R)) : R * R * R :=
  let Sg := e5_sum 100000 sin S0 * (PI / 180) in
  let L := l + Sg in
  (L, atan (e5_sum 10000000 sin (B0 q L Sg)), a * (1 + e5_sum 10000000 cos R0)).
(** jupitermoons/jupitermoons.go:278-376 *)
Definition e5_moons (q : e5) : list (R * R * R) :=
  [e5_moon q (e_l1 q) (e5_S1 q) e5_B1 5.90569 (e5_R1 q); e5_moon q (e_l2 q) (e5_S2 q) e5_B2 9.39657 (e5_R2 q);
   e5_moon q (e_l3 q) (e5_S3 q) e5_B3 14.98832 (e5_R3 q); e5_moon q (e_l4 q) (e5_S4 q) e5_B4 26.36273 (e5_R4 q)].
(** jupitermoons/jupitermoons.go:377-385: precession since 1950 and inclination of the equator *)
Definition e5_P (jde : R) : R := let T0 := (jde - 2433282.423) / 36525 in (1.3966626 * (PI / 180) + 0.0003088 * (PI / 180) * T0) * T0.
Definition e5_I (jde : R) : R := 3.120262 * (PI / 180) + 0.0006 * (PI / 180) * ((jde - 2415020) / 36525).
(** jupitermoons/jupitermoons.go:380-393: coordinates in the plane of the equator; psi already moved by P *)
Definition e5_xyz (P psi : R) (m : R * R * R) : R * R * R :=
  let '(L, B, r) := m in let x := L + P - psi in (r * cos x * cos B, r * sin x * cos B, r * sin B).
(** jupitermoons/jupitermoons.go:399-431: steps 1 to 6 *)
Definition e5_rot (I0 Phi i Om l0 b0 : R) (v : R * R * R) : R * R * R :=
  let '(x, y, z) := v in
  let a := x in let b := y * cos I0 - z * sin I0 in let c := y * sin I0 + z * cos I0 in
  let a2 := a * cos Phi - b * sin Phi in let b2 := a * sin Phi + b * cos Phi in
  let b3 := b2 * cos i - c * sin i in let c3 := b2 * sin i + c * cos i in
  let a4 := a2 * cos Om - b3 * sin Om in let b4 := a2 * sin Om + b3 * cos Om in
  let a5 := a4 * sin l0 - b4 * cos l0 in let b5 := a4 * cos l0 + b4 * sin l0 in
  (a5, c3 * sin b0 + b5 * cos b0, c3 * cos b0 - b5 * sin b0).
(** jupitermoons/jupitermoons.go:432-446: one moon, with the angle D of the pole *)
Definition e5_project (D Delta r k : R) (v : R * R * R) : R * R :=
  let '(A, B, C) := v in
  let x := A * cos D - C * sin D in let y := A * sin D + C * cos D in let z := B in
  let d := x / r in
  let x' := x + Rabs z / k * sqrt (1 - d * d) in
  let W := Delta / (Delta + z / 2095) in (x' * W, y * W).
(** jupitermoons/jupitermoons.go:80-105: direction and distance of Jupiter, and the time t of the light.
    One evaluation of the closure f is e5_place. *)
Definition e5_place (jde s b R0 tau : R) (jupiter : @V87Planet R) : R * R * R * R :=
  let '(l, b', r) := PlanetPosition jupiter (jde - tau) in
  let x := r * cos b' * cos l + R0 * cos s in
  let y := r * cos b' * sin l + R0 * sin s in
  let z := r * sin b' + R0 * sin b in (x, y, z, sqrt (x * x + y * y + z * z)).
Definition e5_direction (jde : R) (earth jupiter : @V87Planet R) : R * R * R * R :=
  let '(s, b, R0) := TrueVSOP87 earth jde in
  let '(_, _, _, D1) := e5_place jde s b R0 (LightTime 5) jupiter in
  let '(x, y, z, D2) := e5_place jde s b R0 (LightTime D1) jupiter in
  (atan2 y x, atan (z / hypot x y), D2, jde - 2443000.5 - LightTime D2).
(** jupitermoons/jupitermoons.go:80-447.  The array pos is a list. *)
Definition E5 (jde : R) (earth jupiter : @V87Planet R) : option (list (R * R)) :=
  let '(l0, b0, Delta, t) := e5_direction jde earth jupiter in
  let q := e5_args t in
  let P := e5_P jde in
  let psi := e_psi q + P in
  bind (Node Jupiter jde) (fun Om => bind (Inc Jupiter jde) (fun i =>
  let rot := e5_rot (e5_I jde) (psi - Om) i Om l0 b0 in
  let '(A4, _, C4) := rot (0, 0, 1) in
  let D := atan2 A4 C4 in
  Some (map (fun mk : R * R * R * R => let '(m, k) := mk in let '(_, _, r) := m in e5_project D Delta r k (rot (e5_xyz P psi m))) (combine (e5_moons q) [17295; 21819; 27558; 36548])))).
