(** Models of packages moonphase, apsis, moonnode and moonmaxdec
    (v3/moonphase/moonphase.go, v3/apsis/apsis.go, v3/moonnode/moonnode.go,
    v3/moonmaxdec/moonmaxdec.go), on exact reals (see GoMath).  Untyped Go
    constants are exact; their rounding to float64 is not modelled.  Structs that
    only carry intermediate values are replaced by arguments. *)
From Coq Require Import ZArith Reals List.
From Verif Require Import GoMath M_precess.
Import ListNotations.
Local Open Scope R_scope.

Definition p_ : R := PI / 180.

(** ** moonphase *)
Definition mp_ck : R := 1 / 1236.85.
(** moonphase/moonphase.go:16-19 *)
Definition mp_mean (T : R) : R := HornerR T [2451550.09766; 29.530588861 / mp_ck; 0.00015437; -0.00000015; 0.00000000073].
(** moonphase/moonphase.go:22-25 *)
Definition mp_snap (y q : R) : R := let k := (y - 2000) * 12.3685 in Floor (k - q + 0.5) + q.
(** moonphase/moonphase.go:32-61 *)
Definition MeanNew (year : R) : R := mp_mean (mp_snap year 0 * mp_ck).
Definition MeanFirst (year : R) : R := mp_mean (mp_snap year 0.25 * mp_ck).
Definition MeanFull (year : R) : R := mp_mean (mp_snap year 0.5 * mp_ck).
Definition MeanLast (year : R) : R := mp_mean (mp_snap year 0.75 * mp_ck).

(** moonphase/moonphase.go:106-114 *)
Definition mp_E (T : R) : R := HornerR T [1; -0.002516; -0.0000074].
Definition mp_M (T : R) : R := HornerR T [2.5534 * p_; 29.1053567 * p_ / mp_ck; -0.0000014 * p_; -0.00000011 * p_].
Definition mp_M1 (T : R) : R := HornerR T [201.5643 * p_; 385.81693528 * p_ / mp_ck; 0.0107582 * p_; 0.00001238 * p_; -0.000000058 * p_].
Definition mp_F (T : R) : R := HornerR T [160.7108 * p_; 390.67050284 * p_ / mp_ck; -0.0016118 * p_; -0.00000227 * p_; 0.000000011 * p_].
Definition mp_Om (T : R) : R := HornerR T [124.7746 * p_; -1.56375588 * p_ / mp_ck; 0.0020672 * p_; 0.00000215 * p_].
(** moonphase/moonphase.go:115-128: the fourteen additional arguments *)
Definition mp_A (k T : R) : list R :=
  [299.7 * p_ + 0.107408 * p_ * k - 0.009173 * T * T;
   251.88 * p_ + 0.016321 * p_ * k;
   251.83 * p_ + 26.651886 * p_ * k;
   349.42 * p_ + 36.412478 * p_ * k;
   84.66 * p_ + 18.206239 * p_ * k;
   141.74 * p_ + 53.303771 * p_ * k;
   207.17 * p_ + 2.453732 * p_ * k;
   154.84 * p_ + 7.30686 * p_ * k;
   34.52 * p_ + 27.261239 * p_ * k;
   207.19 * p_ + 0.121824 * p_ * k;
   291.34 * p_ + 1.844379 * p_ * k;
   161.72 * p_ + 24.198154 * p_ * k;
   239.56 * p_ + 25.513099 * p_ * k;
   331.55 * p_ + 3.592518 * p_ * k].
(** moonphase/moonphase.go:133-159 *)
Definition nfc (c : list R) (E M M1 F Om : R) : R :=
    nth 0 c 0 * sin (M1) + nth 1 c 0 * sin (M) * E + nth 2 c 0 * sin (2 * M1) + nth 3 c 0 * sin (2 * F) + nth 4 c 0 *
    sin (M1 - M) * E + nth 5 c 0 * sin (M1 + M) * E + nth 6 c 0 * sin (2 * M) * E * E + nth 7 c 0 * sin (M1 - 2 * F) +
    nth 8 c 0 * sin (M1 + 2 * F) + nth 9 c 0 * sin (2 * M1 + M) * E + nth 10 c 0 * sin (3 * M1) + nth 11 c 0 * sin (M +
    2 * F) * E + nth 12 c 0 * sin (M - 2 * F) * E + nth 13 c 0 * sin (2 * M1 - M) * E + nth 14 c 0 * sin (Om) + nth 15
    c 0 * sin (M1 + 2 * M) + nth 16 c 0 * sin (2 * (M1 - F)) + nth 17 c 0 * sin (3 * M) + nth 18 c 0 * sin (M1 + M - 2
    * F) + nth 19 c 0 * sin (2 * (M1 + F)) + nth 20 c 0 * sin (M1 + M + 2 * F) + nth 21 c 0 * sin (M1 - M + 2 * F) +
    nth 22 c 0 * sin (M1 - M - 2 * F) + nth 23 c 0 * sin (3 * M1 + M) + nth 24 c 0 * sin (4 * M1).
(** moonphase/moonphase.go:162-188 *)
Definition mp_nc : list R :=
    [-0.4072; 0.17241; 0.01608; 0.01039; 0.00739; -0.00514; 0.00208; -0.00111; -0.00057; 0.00056; -0.00042; 0.00042;
    0.00038; -0.00024; -0.00017; -0.00007; 0.00004; 0.00004; 0.00003; 0.00003; -0.00003; 0.00003; -0.00002; -0.00002;
    0.00002].
(** moonphase/moonphase.go:191-217 *)
Definition mp_fc : list R :=
    [-0.40614; 0.17302; 0.01614; 0.01043; 0.00734; -0.00515; 0.00209; -0.00111; -0.00057; 0.00056; -0.00042; 0.00042;
    0.00038; -0.00024; -0.00017; -0.00007; 0.00004; 0.00004; 0.00003; 0.00003; -0.00003; 0.00003; -0.00002; -0.00002;
    0.00002].
(** moonphase/moonphase.go:262-277 *)
Definition mp_ac : list R :=
    [0.000325; 0.000165; 0.000164; 0.000126; 0.00011; 0.000062; 0.00006; 0.000056; 0.000047; 0.000042; 0.00004;
    0.000037; 0.000035; 0.000023].
(** moonphase/moonphase.go:220-246 *)
Definition flc (E M M1 F Om : R) : R :=
    -0.62801 * sin (M1) + 0.17172 * sin (M) * E + -0.01183 * sin (M1 + M) * E + 0.00862 * sin (2 * M1) + 0.00804 * sin
    (2 * F) + 0.00454 * sin (M1 - M) * E + 0.00204 * sin (2 * M) * E * E + -0.0018 * sin (M1 - 2 * F) + -0.0007 * sin
    (M1 + 2 * F) + -0.0004 * sin (3 * M1) + -0.00034 * sin (2 * M1 - M) + 0.00032 * sin (M + 2 * F) * E + 0.00032 * sin
    (M - 2 * F) * E + -0.00028 * sin (M1 + 2 * M) * E * E + 0.00027 * sin (2 * M1 + M) * E + -0.00017 * sin (Om) +
    -0.00005 * sin (M1 - M - 2 * F) + 0.00004 * sin (2 * M1 + 2 * F) + -0.00004 * sin (M1 + M + 2 * F) + 0.00004 * sin
    (M1 - 2 * M) + 0.00003 * sin (M1 + M - 2 * F) + 0.00003 * sin (3 * M) + 0.00002 * sin (2 * M1 - 2 * F) + 0.00002 *
    sin (M1 - M + 2 * F) + -0.00002 * sin (3 * M1 + M).
(** moonphase/moonphase.go:248-251 *)
Definition mp_w (E M M1 F : R) : R :=
    0.00306 - 0.00038 * E * cos (M) + 0.00026 * cos (M1) - 0.00002 * (cos (M1 - M) - cos (M1 + M) - cos (2 * F)).
(** moonphase/moonphase.go:254-260 *)
Definition mp_a (k T : R) : R := fold_left (fun a cA => a + fst cA * sin (snd cA)) (combine mp_ac (mp_A k T)) 0.
(** moonphase/moonphase.go:66-93 *)
Definition mpNew (year : R) : R :=
  let k := mp_snap year 0 in let T := k * mp_ck in
  mp_mean T + nfc mp_nc (mp_E T) (mp_M T) (mp_M1 T) (mp_F T) (mp_Om T) + mp_a k T.
Definition mpFirst (year : R) : R :=
  let k := mp_snap year 0.25 in let T := k * mp_ck in
  mp_mean T + flc (mp_E T) (mp_M T) (mp_M1 T) (mp_F T) (mp_Om T) + mp_w (mp_E T) (mp_M T) (mp_M1 T) (mp_F T) + mp_a k T.
Definition mpFull (year : R) : R :=
  let k := mp_snap year 0.5 in let T := k * mp_ck in
  mp_mean T + nfc mp_fc (mp_E T) (mp_M T) (mp_M1 T) (mp_F T) (mp_Om T) + mp_a k T.
Definition mpLast (year : R) : R :=
  let k := mp_snap year 0.75 in let T := k * mp_ck in
  mp_mean T + flc (mp_E T) (mp_M T) (mp_M1 T) (mp_F T) (mp_Om T) - mp_w (mp_E T) (mp_M T) (mp_M1 T) (mp_F T) + mp_a k T.

(** ** apsis *)
Definition ap_ck : R := 1 / 1325.55.
(** apsis/apsis.go:18-21 *)
Definition ap_mean (T : R) : R := HornerR T [2451534.6698; 27.55454989 / ap_ck; -0.0006691; -0.000001098; 0.0000000052].
(** apsis/apsis.go:24-27 *)
Definition ap_snap (y h : R) : R := let k := (y - 1999.97) * 13.2555 in Floor (k - h + 0.5) + h.

(** apsis/apsis.go:83-88 *)
Definition ap_D (T : R) : R := HornerR T [171.9179 * p_; 335.9106046 * p_ / ap_ck; -0.0100383 * p_; -0.00001156 * p_; 0.000000055 * p_].
Definition ap_M (T : R) : R := HornerR T [347.3477 * p_; 27.1577721 * p_ / ap_ck; -0.000813 * p_; -0.000001 * p_].
Definition ap_F (T : R) : R := HornerR T [316.6109 * p_; 364.5287911 * p_ / ap_ck; -0.0125053 * p_; -0.0000148 * p_].
(** apsis/apsis.go:93-154 *)
Definition ap_pc (T D M F : R) : R :=
    -1.6769 * sin (2 * D) + 0.4589 * sin (4 * D) + -0.1856 * sin (6 * D) + 0.0883 * sin (8 * D) + (-0.0773 + 0.00019 *
    T) * sin (2 * D - M) + (0.0502 - 0.00013 * T) * sin (M) + -0.046 * sin (10 * D) + (0.0422 - 0.00011 * T) * sin (4 *
    D - M) + -0.0256 * sin (6 * D - M) + 0.0253 * sin (12 * D) + 0.0237 * sin (D) + 0.0162 * sin (8 * D - M) + -0.0145
    * sin (14 * D) + 0.0129 * sin (2 * F) + -0.0112 * sin (3 * D) + -0.0104 * sin (10 * D - M) + 0.0086 * sin (16 * D)
    + 0.0069 * sin (12 * D - M) + 0.0066 * sin (5 * D) + -0.0053 * sin (2 * (D + F)) + -0.0052 * sin (18 * D) + -0.0046
    * sin (14 * D - M) + -0.0041 * sin (7 * D) + 0.004 * sin (2 * D + M) + 0.0032 * sin (20 * D) + -0.0032 * sin (D +
    M) + 0.0031 * sin (16 * D - M) + -0.0029 * sin (4 * D + M) + 0.0027 * sin (9 * D) + 0.0027 * sin (4 * D + 2 * F) +
    -0.0027 * sin (2 * (D - M)) + 0.0024 * sin (4 * D - 2 * M) + -0.0021 * sin (6 * D - 2 * M) + -0.0021 * sin (22 * D)
    + -0.0021 * sin (18 * D - M) + 0.0019 * sin (6 * D + M) + -0.0018 * sin (11 * D) + -0.0014 * sin (8 * D + M) +
    -0.0014 * sin (4 * D - 2 * F) + -0.0014 * sin (6 * D + 2 * F) + 0.0014 * sin (3 * D + M) + -0.0014 * sin (5 * D +
    M) + 0.0013 * sin (13 * D) + 0.0013 * sin (20 * D - M) + 0.0011 * sin (3 * D + 2 * M) + -0.0011 * sin (2 * (2 * D +
    F - M)) + -0.001 * sin (D + 2 * M) + -0.0009 * sin (22 * D - M) + -0.0008 * sin (4 * F) + 0.0008 * sin (6 * D - 2 *
    F) + 0.0008 * sin (2 * (D - F) + M) + 0.0007 * sin (2 * M) + 0.0007 * sin (2 * F - M) + 0.0007 * sin (2 * D + 4 *
    F) + -0.0006 * sin (2 * (F - M)) + -0.0006 * sin (2 * (D - F + M)) + 0.0006 * sin (24 * D) + 0.0005 * sin (4 * (D -
    F)) + 0.0005 * sin (2 * (D + M)) + -0.0004 * sin (D - M).
(** apsis/apsis.go:157-190 *)
Definition ap_ac (T D M F : R) : R :=
    0.4392 * sin (2 * D) + 0.0684 * sin (4 * D) + (0.0456 - 0.00011 * T) * sin (M) + (0.0426 - 0.00011 * T) * sin (2 *
    D - M) + 0.0212 * sin (2 * F) + -0.0189 * sin (D) + 0.0144 * sin (6 * D) + 0.0113 * sin (4 * D - M) + 0.0047 * sin
    (2 * (D + F)) + 0.0036 * sin (D + M) + 0.0035 * sin (8 * D) + 0.0034 * sin (6 * D - M) + -0.0034 * sin (2 * (D -
    F)) + 0.0022 * sin (2 * (D - M)) + -0.0017 * sin (3 * D) + 0.0013 * sin (4 * D + 2 * F) + 0.0011 * sin (8 * D - M)
    + 0.001 * sin (4 * D - 2 * M) + 0.0009 * sin (10 * D) + 0.0007 * sin (3 * D + M) + 0.0006 * sin (2 * M) + 0.0005 *
    sin (2 * D + M) + 0.0005 * sin (2 * (D + M)) + 0.0004 * sin (6 * D + 2 * F) + 0.0004 * sin (6 * D - 2 * M) + 0.0004
    * sin (10 * D - M) + -0.0004 * sin (5 * D) + -0.0004 * sin (4 * D - 2 * F) + 0.0003 * sin (2 * F + M) + 0.0003 *
    sin (12 * D) + 0.0003 * sin (2 * D + 2 * F - M) + -0.0003 * sin (D - M).
(** apsis/apsis.go:194-213 *)
Definition ap_ap (T D M F : R) : R :=
    AngleFromSec (3245.251 + -9.147 * cos (2 * D) + -0.841 * cos (D) + 0.697 * cos (2 * F) + (-0.656 + 0.0016 * T) *
    cos (M) + 0.355 * cos (4 * D) + 0.159 * cos (2 * D - M) + 0.127 * cos (D + M) + 0.065 * cos (4 * D - M) + 0.052 *
    cos (6 * D) + 0.043 * cos (2 * D + M) + 0.031 * cos (2 * (D + F)) + -0.023 * cos (2 * (D - F)) + 0.022 * cos (2 *
    (D - M)) + 0.019 * cos (2 * (D + M)) + -0.016 * cos (2 * M) + 0.014 * cos (6 * D - M) + 0.01 * cos (8 * D)).
(** apsis/apsis.go:217-265 *)
Definition ap_pp (T D M F : R) : R :=
    AngleFromSec (3629.215 + 63.224 * cos (2 * D) + -6.99 * cos (4 * D) + (2.834 - 0.0071 * T) * cos (2 * D - M) +
    1.927 * cos (6 * D) + -1.263 * cos (D) + -0.702 * cos (8 * D) + (0.696 - 0.0017 * T) * cos (M) + -0.69 * cos (2 *
    F) + (-0.629 + 0.0016 * T) * cos (4 * D - M) + -0.392 * cos (2 * (D - F)) + 0.297 * cos (10 * D) + 0.26 * cos (6 *
    D - M) + 0.201 * cos (3 * D) + -0.161 * cos (2 * D + M) + 0.157 * cos (D + M) + -0.138 * cos (12 * D) + -0.127 *
    cos (8 * D - M) + 0.104 * cos (2 * (D + F)) + 0.104 * cos (2 * (D - M)) + -0.079 * cos (5 * D) + 0.068 * cos (14 *
    D) + 0.067 * cos (10 * D - M) + 0.054 * cos (4 * D + M) + -0.038 * cos (12 * D - M) + -0.038 * cos (4 * D - 2 * M)
    + 0.037 * cos (7 * D) + -0.037 * cos (4 * D + 2 * F) + -0.035 * cos (16 * D) + -0.03 * cos (3 * D + M) + 0.029 *
    cos (D - M) + -0.025 * cos (6 * D + M) + 0.023 * cos (2 * M) + 0.023 * cos (14 * D - M) + -0.023 * cos (2 * (D +
    M)) + 0.022 * cos (6 * D - 2 * M) + -0.021 * cos (2 * D - 2 * F - M) + -0.02 * cos (9 * D) + 0.019 * cos (18 * D) +
    0.017 * cos (6 * D + 2 * F) + 0.014 * cos (2 * F - M) + -0.014 * cos (16 * D - M) + 0.013 * cos (4 * D - 2 * F) +
    0.012 * cos (8 * D + M) + 0.011 * cos (11 * D) + 0.01 * cos (5 * D + M) + -0.01 * cos (20 * D)).
(** apsis/apsis.go:32-71 *)
Definition MeanPerigee (year : R) : R := ap_mean (ap_snap year 0 * ap_ck).
Definition MeanApogee (year : R) : R := ap_mean (ap_snap year 0.5 * ap_ck).
Definition Perigee (year : R) : R := let T := ap_snap year 0 * ap_ck in ap_mean T + ap_pc T (ap_D T) (ap_M T) (ap_F T).
Definition Apogee (year : R) : R := let T := ap_snap year 0.5 * ap_ck in ap_mean T + ap_ac T (ap_D T) (ap_M T) (ap_F T).
Definition ApogeeParallax (year : R) : R := let T := ap_snap year 0.5 * ap_ck in ap_ap T (ap_D T) (ap_M T) (ap_F T).
Definition PerigeeParallax (year : R) : R := let T := ap_snap year 0 * ap_ck in ap_pp T (ap_D T) (ap_M T) (ap_F T).

(** ** moonnode *)
Definition no_ck : R := 1 / 1342.23.
(** moonnode/moonnode.go:32-33 *)
Definition no_snap (y h : R) : R := let k := (y - 2000.05) * 13.4223 in Floor (k - h + 0.5) + h.

(** moonnode/moonnode.go:37-47 *)
Definition no_D (T : R) : R := HornerR T [183.638 * p_; 331.73735682 * p_ / no_ck; 0.0014852 * p_; 0.00000209 * p_; -0.00000001 * p_].
Definition no_M (T : R) : R := HornerR T [17.4006 * p_; 26.8203725 * p_ / no_ck; 0.0001186 * p_; 0.00000006 * p_].
Definition no_M1 (T : R) : R := HornerR T [38.3776 * p_; 355.52747313 * p_ / no_ck; 0.0123499 * p_; 0.000014627 * p_; -0.000000069 * p_].
Definition no_Om (T : R) : R := HornerR T [123.9767 * p_; -1.44098956 * p_ / no_ck; 0.0020608 * p_; 0.00000214 * p_; -0.000000016 * p_].
Definition no_V (T : R) : R := HornerR T [299.75 * p_; 132.85 * p_; -0.009173 * p_].
Definition no_E (T : R) : R := HornerR T [1; -0.002516; -0.0000074].
Definition no_P (T : R) : R := no_Om T + 272.75 * p_ - 2.3 * p_ * T.
(** moonnode/moonnode.go:48-49: mean passage *)
Definition no_mean (T : R) : R := HornerR T [2451565.1619; 27.212220817 / no_ck; 0.0002762; 0.000000021; -0.000000000088].
(** moonnode/moonnode.go:50-71 *)
Definition no_corr (E D M M1 Om V P : R) : R :=
    -0.4721 * sin (M1) + -0.1649 * sin (2 * D) + -0.0868 * sin (2 * D - M1) + 0.0084 * sin (2 * D + M1) + -0.0083 * sin
    (2 * D - M) * E + -0.0039 * sin (2 * D - M - M1) * E + 0.0034 * sin (2 * M1) + -0.0031 * sin (2 * (D - M1)) + 0.003
    * sin (2 * D + M) * E + 0.0028 * sin (M - M1) * E + 0.0026 * sin (M) * E + 0.0025 * sin (4 * D) + 0.0024 * sin (D)
    + 0.0022 * sin (M + M1) * E + 0.0017 * sin (Om) + 0.0014 * sin (4 * D - M1) + 0.0005 * sin (2 * D + M - M1) * E +
    0.0004 * sin (2 * D - M + M1) * E + -0.0003 * sin (2 * (D - M)) * E + 0.0003 * sin (4 * D - M) * E + 0.0003 * sin
    (V) + 0.0003 * sin (P).
(** moonnode/moonnode.go:31-72, 17-29.  The Go expression adds the correction terms
    one by one to the mean value; here they are summed first. *)
Definition node_ (y h : R) : R :=
  let T := no_snap y h * no_ck in
  no_mean T + no_corr (no_E T) (no_D T) (no_M T) (no_M1 T) (no_Om T) (no_V T) (no_P T).
Definition nodeAscending (year : R) : R := node_ year 0.
Definition nodeDescending (year : R) : R := node_ year 0.5.

(** ** moonmaxdec *)
Definition md_ck : R := 1 / 1336.86.
(** moonmaxdec/moonmaxdec.go:37-38 *)
Definition md_snap (y : R) : R := let k := (y - 2000.03) * 13.3686 in Floor (k + 0.5).
(** moonmaxdec/moonmaxdec.go:131-135 *)
Record mc := mkmc { mcD : R; mcM : R; mcM1 : R; mcF : R; mcJDE : R; mcs : R; mctc : list R; mcdc : list R }.

(** moonmaxdec/moonmaxdec.go:41-45 *)
Definition md_D (c : mc) (T : R) : R := HornerR T [mcD c; 333.0705546 * p_ / md_ck; -0.0004214 * p_; 0.00000011 * p_].
Definition md_M (c : mc) (T : R) : R := HornerR T [mcM c; 26.9281592 * p_ / md_ck; -0.0000355 * p_; -0.0000001 * p_].
Definition md_M1 (c : mc) (T : R) : R := HornerR T [mcM1 c; 356.9562794 * p_ / md_ck; 0.0103066 * p_; 0.00001251 * p_].
Definition md_F (c : mc) (T : R) : R := HornerR T [mcF c; 1.4467807 * p_ / md_ck; -0.002069 * p_; -0.00000215 * p_].
Definition md_E (T : R) : R := HornerR T [1; -0.002516; -0.0000074].
(** moonmaxdec/moonmaxdec.go:46 *)
Definition md_mean (c : mc) (T : R) : R := HornerR T [mcJDE c; 27.321582247 / md_ck; 0.000119804; -0.000000141].
(** moonmaxdec/moonmaxdec.go:47-90 *)
Definition md_corr (tc : list R) (E D M M1 F : R) : R :=
    nth 0 tc 0 * cos (F) + nth 1 tc 0 * sin (M1) + nth 2 tc 0 * sin (2 * F) + nth 3 tc 0 * sin (2 * D - M1) + nth 4 tc
    0 * cos (M1 - F) + nth 5 tc 0 * cos (M1 + F) + nth 6 tc 0 * sin (2 * D) + nth 7 tc 0 * sin (M) * E + nth 8 tc 0 *
    cos (3 * F) + nth 9 tc 0 * sin (M1 + 2 * F) + nth 10 tc 0 * cos (2 * D - F) + nth 11 tc 0 * cos (2 * D - M1 - F) +
    nth 12 tc 0 * cos (2 * D - M1 + F) + nth 13 tc 0 * cos (2 * D + F) + nth 14 tc 0 * sin (2 * M1) + nth 15 tc 0 * sin
    (M1 - 2 * F) + nth 16 tc 0 * cos (2 * M1 - F) + nth 17 tc 0 * sin (M1 + 3 * F) + nth 18 tc 0 * sin (2 * D - M - M1)
    * E + nth 19 tc 0 * cos (M1 - 2 * F) + nth 20 tc 0 * sin (2 * (D - M1)) + nth 21 tc 0 * sin (F) + nth 22 tc 0 * sin
    (2 * D + M1) + nth 23 tc 0 * cos (M1 + 2 * F) + nth 24 tc 0 * sin (2 * D - M) * E + nth 25 tc 0 * sin (M1 + F) +
    nth 26 tc 0 * sin (M - M1) * E + nth 27 tc 0 * sin (M1 - 3 * F) + nth 28 tc 0 * sin (2 * M1 + F) + nth 29 tc 0 *
    cos (2 * (D - M1) - F) + nth 30 tc 0 * sin (3 * F) + nth 31 tc 0 * cos (M1 + 3 * F) + nth 32 tc 0 * cos (2 * M1) +
    nth 33 tc 0 * cos (2 * D - M1) + nth 34 tc 0 * cos (2 * D + M1 + F) + nth 35 tc 0 * cos (M1) + nth 36 tc 0 * sin (3
    * M1 + F) + nth 37 tc 0 * sin (2 * D - M1 + F) + nth 38 tc 0 * cos (2 * (D - M1)) + nth 39 tc 0 * cos (D + F) + nth
    40 tc 0 * sin (M + M1) * E + nth 41 tc 0 * sin (2 * (D - F)) + nth 42 tc 0 * cos (2 * M1 + F) + nth 43 tc 0 * cos
    (3 * M1 + F).
(** moonmaxdec/moonmaxdec.go:91-128 *)
Definition md_dec (dc : list R) (T E D M M1 F : R) : R :=
    23.6961 * p_ - 0.013004 * p_ * T + nth 0 dc 0 * sin (F) + nth 1 dc 0 * cos (2 * F) + nth 2 dc 0 * sin (2 * D - F) +
    nth 3 dc 0 * sin (3 * F) + nth 4 dc 0 * cos (2 * (D - F)) + nth 5 dc 0 * cos (2 * D) + nth 6 dc 0 * sin (M1 - F) +
    nth 7 dc 0 * sin (M1 + 2 * F) + nth 8 dc 0 * cos (F) + nth 9 dc 0 * sin (2 * D + M - F) * E + nth 10 dc 0 * sin (M1
    + 3 * F) + nth 11 dc 0 * sin (D + F) + nth 12 dc 0 * sin (M1 - 2 * F) + nth 13 dc 0 * sin (2 * D - M - F) * E + nth
    14 dc 0 * sin (2 * D - M1 - F) + nth 15 dc 0 * cos (M1 + F) + nth 16 dc 0 * cos (M1 + 2 * F) + nth 17 dc 0 * cos (2
    * M1 + F) + nth 18 dc 0 * cos (M1 - 3 * F) + nth 19 dc 0 * cos (2 * M1 - F) + nth 20 dc 0 * cos (M1 - 2 * F) + nth
    21 dc 0 * sin (2 * M1) + nth 22 dc 0 * sin (3 * M1 + F) + nth 23 dc 0 * cos (2 * D + M - F) * E + nth 24 dc 0 * cos
    (M1 - F) + nth 25 dc 0 * cos (3 * F) + nth 26 dc 0 * sin (2 * D + F) + nth 27 dc 0 * cos (M1 + 3 * F) + nth 28 dc 0
    * cos (D + F) + nth 29 dc 0 * sin (2 * M1 - F) + nth 30 dc 0 * cos (3 * M1 + F) + nth 31 dc 0 * cos (2 * (D + M1) +
    F) + nth 32 dc 0 * sin (2 * (D - M1) - F) + nth 33 dc 0 * cos (2 * M1) + nth 34 dc 0 * cos (M1) + nth 35 dc 0 * sin
    (2 * F) + nth 36 dc 0 * sin (M1 + F).
(** moonmaxdec/moonmaxdec.go:36-130 *)
Definition md_max (y : R) (c : mc) : R * R :=
  let T := md_snap y * md_ck in
  let D := md_D c T in let M := md_M c T in let M1 := md_M1 c T in let F := md_F c T in let E := md_E T in
  (md_mean c T + md_corr (mctc c) E D M M1 F, md_dec (mcdc c) T E D M M1 F * mcs c).

(** moonmaxdec/moonmaxdec.go:139-231 *)
Definition md_north : mc := mkmc (152.2029 * p_) (14.8591 * p_) (4.6881 * p_) (325.8867 * p_) 2451562.5897 (1)
    [0.8975; -0.4726; -0.103; -0.0976; -0.0462; -0.0461; -0.0438; 0.0162; -0.0157; 0.0145; 0.0136; -0.0095; -0.0091;
    -0.0089; 0.0075; -0.0068; 0.0061; -0.0047; -0.0043; -0.004; -0.0037; 0.0031; 0.003; -0.0029; -0.0029; -0.0027;
    0.0024; -0.0021; 0.0019; 0.0018; 0.0018; 0.0017; 0.0017; -0.0014; 0.0013; 0.0013; 0.0012; 0.0011; -0.0011; 0.001;
    0.001; -0.0009; 0.0007; -0.0007]
    [5.1093 * p_; 0.2658 * p_; 0.1448 * p_; -0.0322 * p_; 0.0133 * p_; 0.0125 * p_; -0.0124 * p_; -0.0101 * p_; 0.0097
    * p_; -0.0087 * p_; 0.0074 * p_; 0.0067 * p_; 0.0063 * p_; 0.006 * p_; -0.0057 * p_; -0.0056 * p_; 0.0052 * p_;
    0.0041 * p_; -0.004 * p_; 0.0038 * p_; -0.0034 * p_; -0.0029 * p_; 0.0029 * p_; -0.0028 * p_; -0.0028 * p_; -0.0023
    * p_; -0.0021 * p_; 0.0019 * p_; 0.0018 * p_; 0.0017 * p_; 0.0015 * p_; 0.0014 * p_; -0.0012 * p_; -0.0012 * p_;
    -0.001 * p_; -0.001 * p_; 0.0006 * p_].
(** moonmaxdec/moonmaxdec.go:234-326 *)
Definition md_south : mc := mkmc (345.6676 * p_) (1.3951 * p_) (186.21 * p_) (145.1633 * p_) 2451548.9289 (-1)
    [-0.8975; -0.4726; -0.103; -0.0976; 0.0541; 0.0516; -0.0438; 0.0112; 0.0157; 0.0023; -0.0136; 0.011; 0.0091;
    0.0089; 0.0075; -0.003; -0.0061; -0.0047; -0.0043; 0.004; -0.0037; -0.0031; 0.003; 0.0029; -0.0029; -0.0027;
    0.0024; -0.0021; -0.0019; -0.0006; -0.0018; -0.0017; 0.0017; 0.0014; -0.0013; -0.0013; 0.0012; 0.0011; 0.0011;
    0.001; 0.001; -0.0009; -0.0007; -0.0007]
    [-5.1093 * p_; 0.2658 * p_; -0.1448 * p_; 0.0322 * p_; 0.0133 * p_; 0.0125 * p_; -0.0015 * p_; 0.0101 * p_; -0.0097
    * p_; 0.0087 * p_; 0.0074 * p_; 0.0067 * p_; -0.0063 * p_; -0.006 * p_; 0.0057 * p_; -0.0056 * p_; -0.0052 * p_;
    -0.0041 * p_; -0.004 * p_; -0.0038 * p_; 0.0034 * p_; -0.0029 * p_; 0.0029 * p_; 0.0028 * p_; -0.0028 * p_; 0.0023
    * p_; 0.0021 * p_; 0.0019 * p_; 0.0018 * p_; -0.0017 * p_; 0.0015 * p_; 0.0014 * p_; 0.0012 * p_; -0.0012 * p_;
    0.001 * p_; -0.001 * p_; 0.0037 * p_].
(** moonmaxdec/moonmaxdec.go:19-33 *)
Definition maxdecNorth (y : R) : R * R := md_max y md_north.
Definition maxdecSouth (y : R) : R * R := md_max y md_south.
