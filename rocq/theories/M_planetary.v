(** Models of packages planetary and perihelion (v3/planetary/planetary.go,
    v3/perihelion/perihelion.go), on exact reals (see GoMath). *)
From Coq Require Import ZArith Reals List Bool.
From Flocq Require Import Core.
From Verif Require Import GoFloat GoMath M_base M_interp M_precess.
Import ListNotations.
Local Open Scope R_scope.

(** ** planetary *)
(** planetary/planetary.go:168-170 *)
Record ca := mkca { caA : R; caB : R; caM0 : R; caM1 : R }.
(** planetary/planetary.go:17-24.  base.J2000Century(J) = (J - 2451545)/36525. *)
Definition pl_k (y : R) (a : ca) : R := Floor ((365.2425 * y + 1721060 - caA a) / caB a + 0.5).
Definition pl_J (y : R) (a : ca) : R := caA a + pl_k y a * caB a.
Definition pl_M (y : R) (a : ca) : R := PMod (caM0 a + pl_k y a * caM1 a) 360 * PI / 180.
Definition pl_T (y : R) (a : ca) : R := (pl_J y a - 2451545) / 36525.

(** base.Horner panics without coefficients; a row of a table. *)
Definition rowH (T : R) (c : list R) : option R := Horner (fl := RFlt) T c.
(** planetary/planetary.go:27-38: rows after the first in pairs; the loop indexes
    past the end (panic) when a pair is incomplete. *)
Fixpoint sum_loop (T M : R) (rows : list (list R)) (mm j : R) : option R :=
  match rows with
  | [] => Some j
  | [_] => None
  | s :: c :: rest =>
      let mm := mm + M in
      match rowH T s, rowH T c with
      | Some vs, Some vc => sum_loop T M rest mm (j + sin mm * vs + cos mm * vc)
      | _, _ => None
      end
  end.
Definition pl_sum (T M : R) (c : list (list R)) : option R :=
  match c with
  | [] => None
  | c0 :: rest => match rowH T c0 with Some j => sum_loop T M rest 0 j | None => None end
  end.
(** planetary/planetary.go:41-44 *)
Definition ms (y : R) (a : ca) (c : list (list R)) : option R :=
  match pl_sum (pl_T y a) (pl_M y a) c with Some s => Some (pl_J y a + s) | None => None end.
(** planetary/planetary.go:192-194 *)
Record caa := mkcaa { caac : R; caaf : R }.
(** planetary/planetary.go:79-90: the last 2*len(aa) rows belong to the additional
    angles; slicing panics when there are fewer rows. *)
Fixpoint sumA_loop (T : R) (aa : list caa) (rows : list (list R)) (j : R) : option R :=
  match aa with
  | [] => Some j
  | a :: aa' =>
      match rows with
      | s :: c :: rest =>
          match rowH T s, rowH T c with
          | Some vs, Some vc =>
              let x := (caac a + caaf a * T) * PI / 180 in
              sumA_loop T aa' rest (j + sin x * vs + cos x * vc)
          | _, _ => None
          end
      | _ => None
      end
  end.
Definition sumA (T M : R) (c : list (list R)) (aa : list caa) : option R :=
  if (length c <? 2 * length aa)%nat then None
  else
    let i := (length c - 2 * length aa)%nat in
    match pl_sum T M (firstn i c) with
    | Some j => sumA_loop T aa (skipn i c) j
    | None => None
    end.
(** planetary/planetary.go:93-96 *)
Definition msa (y : R) (a : ca) (c : list (list R)) (aa : list caa) : option R :=
  match sumA (pl_T y a) (pl_M y a) c aa with Some s => Some (pl_J y a + s) | None => None end.

(** planetary/planetary.go:173 *)
Definition micA : ca := mkca 2451612.023 115.8774771 63.5867 114.2088742.
(** planetary/planetary.go:174 *)
Definition mscA : ca := mkca 2451554.084 115.8774771 6.4822 114.2088742.
(** planetary/planetary.go:175 *)
Definition vicA : ca := mkca 2451996.706 583.921361 82.7311 215.513058.
(** planetary/planetary.go:177 *)
Definition moA : ca := mkca 2452097.382 779.936104 181.9573 48.705244.
(** planetary/planetary.go:179 *)
Definition joA : ca := mkca 2451870.628 398.884046 318.4681 33.140229.
(** planetary/planetary.go:181 *)
Definition soA : ca := mkca 2451870.17 378.091904 318.0172 12.647487.
(** planetary/planetary.go:182 *)
Definition scA : ca := mkca 2451681.124 378.091904 131.6934 12.647487.
(** planetary/planetary.go:183 *)
Definition uoA : ca := mkca 2451764.317 369.656035 213.6884 4.333093.
(** planetary/planetary.go:185 *)
Definition noA : ca := mkca 2451753.122 367.486703 202.6544 2.194998.
(** planetary/planetary.go:194-196 *)
Definition jaa : list caa := [mkcaa 82.74 40.76].
(** planetary/planetary.go:198-203 *)
Definition saa : list caa := [mkcaa 82.74 40.76; mkcaa 29.86 1181.36; mkcaa 14.13 590.68; mkcaa 220.02 1262.87].
(** planetary/planetary.go:205-208 *)
Definition uaa : list caa := [mkcaa 207.83 8.51; mkcaa 108.84 419.96].
(** planetary/planetary.go:210-213 *)
Definition naa : list caa := [mkcaa 207.83 8.51; mkcaa 276.74 209.98].
(** planetary/planetary.go:218-230 *)
Definition micB : list (list R) :=
  [[0.0545; 0.0002];
   [-6.2008; 0.0074; 0.00003];
   [-3.275; -0.0197; 0.00001];
   [0.4737; -0.0052; -0.00001];
   [0.8111; 0.0033; -0.00002];
   [0.0037; 0.0018];
   [-0.1768; 0; 0.00001];
   [-0.0211; -0.0004];
   [0.0326; -0.0003];
   [0.0083; 0.0001];
   [-0.004; 0.0001]].
(** planetary/planetary.go:233-245 *)
Definition mscB : list (list R) :=
  [[-0.0548; -0.0002];
   [7.3894; -0.01; -0.00003];
   [3.22; 0.0197; -0.00001];
   [0.8383; -0.0064; -0.00001];
   [0.9666; 0.0039; -0.00003];
   [0.077; -0.0026];
   [0.2758; 0.0002; -0.00002];
   [-0.0128; -0.0008];
   [0.0734; -0.0004; -0.00001];
   [-0.0122; -0.0002];
   [0.0173; -0.0002]].
(** planetary/planetary.go:248-256 *)
Definition vicB : list (list R) :=
  [[-0.0096; 0.0002; -0.00001];
   [2.0009; -0.0033; -0.00001];
   [0.598; -0.0104; 0.00001];
   [0.0967; -0.0018; -0.00003];
   [0.0913; 0.0009; -0.00002];
   [0.0046; -0.0002];
   [0.0079; 0.0001]].
(** planetary/planetary.go:259-271 *)
Definition moB : list (list R) :=
  [[-0.3088; 0; 0.00002];
   [-17.6965; 0.0363; 0.00005];
   [18.3131; 0.0467; -0.00006];
   [-0.2162; -0.0198; -0.00001];
   [-4.5028; -0.0019; 0.00007];
   [0.8987; 0.0058; -0.00002];
   [0.7666; -0.005; -0.00003];
   [-0.3636; -0.0001; 0.00002];
   [0.0402; 0.0032];
   [0.0737; -0.0008];
   [-0.098; -0.0011]].
(** planetary/planetary.go:274-284 *)
Definition joB : list (list R) :=
  [[-0.1029; 0; -0.00009];
   [-1.9658; -0.0056; 0.00007];
   [6.1537; 0.021; -0.00006];
   [-0.2081; -0.0013];
   [-0.1116; -0.001];
   [0.0074; 0.0001];
   [-0.0097; -0.0001];
   [0; 0.0144; -0.00008];
   [0.3642; -0.0019; -0.00029]].
(** planetary/planetary.go:287-303 *)
Definition soB : list (list R) :=
  [[-0.0209; 0.0006; 0.00023];
   [4.5795; -0.0312; -0.00017];
   [1.1462; -0.0351; 0.00011];
   [0.0985; -0.0015];
   [0.0733; -0.0031; 0.00001];
   [0.0025; -0.0001];
   [0.005; -0.0002];
   [0; -0.0337; 0.00018];
   [-0.851; 0.0044; 0.00068];
   [0; -0.0064; 0.00004];
   [0.2397; -0.0012; -0.00008];
   [0; -0.001];
   [0.1245; 0.0006];
   [0; 0.0024; -0.00003];
   [0.0477; -0.0005; -0.00006]].
(** planetary/planetary.go:306-322 *)
Definition scB : list (list R) :=
  [[0.0172; -0.0006; 0.00023];
   [-8.5885; 0.0411; 0.0002];
   [-1.147; 0.0352; -0.00011];
   [0.3331; -0.0034; -0.00001];
   [0.1145; -0.0045; 0.00002];
   [-0.0169; 0.0002];
   [-0.0109; 0.0004];
   [0; -0.0337; 0.00018];
   [-0.851; 0.0044; 0.00068];
   [0; -0.0064; 0.00004];
   [0.2397; -0.0012; -0.00008];
   [0; -0.001];
   [0.1245; 0.0006];
   [0; 0.0024; -0.00003];
   [0.0477; -0.0005; -0.00006]].
(** planetary/planetary.go:325-337 *)
Definition uoB : list (list R) :=
  [[0.0844; -0.0006];
   [-0.1048; 0.0246];
   [-5.1221; 0.0104; 0.00003];
   [-0.1428; 0.0005];
   [-0.0148; -0.0013];
   [0];
   [0.0055];
   [0];
   [0.885];
   [0];
   [0.2153]].
(** planetary/planetary.go:340-350 *)
Definition noB : list (list R) :=
  [[-0.014; 0; 0.00001];
   [-1.3486; 0.001; 0.00001];
   [0.8597; 0.0037];
   [-0.0082; -0.0002; 0.00001];
   [0.0037; -0.0003];
   [0];
   [-0.5964];
   [0];
   [0.0728]].
(** planetary/planetary.go:355-367 *)
Definition met : list (list R) :=
  [[-21.6106; 0.0002];
   [-1.9803; -0.006; 0.00001];
   [1.4151; -0.0072; -0.00001];
   [0.5528; -0.0005; -0.00001];
   [0.2905; 0.0034; 0.00001];
   [-0.1121; -0.0001; 0.00001];
   [-0.0098; -0.0015];
   [0.0192];
   [0.0111; 0.0004];
   [-0.0061];
   [-0.0032; -0.0001]].
(** planetary/planetary.go:370-382 *)
Definition mee : list (list R) :=
  [[22.4697];
   [-4.2666; 0.0054; 0.00002];
   [-1.8537; -0.0137];
   [0.3598; 0.0008; -0.00001];
   [-0.068; 0.0026];
   [-0.0524; -0.0003];
   [0.0052; -0.0006];
   [0.0107; 0.0001];
   [-0.0013; 0.0001];
   [-0.0021];
   [0.0003]].
(** planetary/planetary.go:385-397 *)
Definition mwt : list (list R) :=
  [[21.6249; -0.0002];
   [0.1306; 0.0065];
   [-2.7661; -0.0011; 0.00001];
   [0.2438; -0.0024; -0.00001];
   [0.5767; 0.0023];
   [0.1041];
   [-0.0184; 0.0007];
   [-0.0051; -0.0001];
   [0.0048; 0.0001];
   [0.0026];
   [0.0037]].
(** planetary/planetary.go:400-412 *)
Definition mwe : list (list R) :=
  [[22.4143; -0.0001];
   [4.3651; -0.0048; -0.00002];
   [2.3787; 0.0121; -0.00001];
   [0.2674; 0.0022];
   [-0.3873; 0.0008; 0.00001];
   [-0.0369; -0.0001];
   [0.0017; -0.0001];
   [0.0059];
   [0.0061; 0.0001];
   [0.0007];
   [-0.0011]].
(** planetary/planetary.go:417-429 *)
Definition ms2 : list (list R) :=
  [[36.7191; 0.0016; 0.00003];
   [-12.6163; 0.0417; -0.00001];
   [20.1218; 0.0379; -0.00006];
   [-1.636; -0.019];
   [-3.9657; 0.0045; 0.00007];
   [1.1546; 0.0029; -0.00003];
   [0.2888; -0.0073; -0.00002];
   [-0.3128; 0.0017; 0.00002];
   [0.2513; 0.0026; -0.00002];
   [-0.0021; -0.0016];
   [-0.1497; -0.0006]].
(** planetary/planetary.go:139-142: the table row is that of Mercury's inferior
    conjunction whatever the argument a. *)
Definition el (y : R) (a : ca) (t e : list (list R)) : option (R * R) :=
  match pl_sum (pl_T y micA) (pl_M y micA) t, pl_sum (pl_T y micA) (pl_M y micA) e with
  | Some st, Some se => Some (pl_J y micA + st, AngleFromDeg se)
  | _, _ => None
  end.

(** planetary/planetary.go:51-53 *)
Definition plMercuryInfConj (y : R) : option R := ms y micA micB.
(** planetary/planetary.go:59-61 *)
Definition plMercurySupConj (y : R) : option R := ms y mscA mscB.
(** planetary/planetary.go:67-69 *)
Definition plVenusInfConj (y : R) : option R := ms y vicA vicB.
(** planetary/planetary.go:75-77 *)
Definition plMarsOpp (y : R) : option R := ms y moA moB.
(** planetary/planetary.go:103-105 *)
Definition plJupiterOpp (y : R) : option R := msa y joA joB jaa.
(** planetary/planetary.go:111-113 *)
Definition plSaturnOpp (y : R) : option R := msa y soA soB saa.
(** planetary/planetary.go:119-121 *)
Definition plSaturnConj (y : R) : option R := msa y scA scB saa.
(** planetary/planetary.go:127-129 *)
Definition plUranusOpp (y : R) : option R := msa y uoA uoB uaa.
(** planetary/planetary.go:135-137 *)
Definition plNeptuneOpp (y : R) : option R := msa y noA noB naa.
(** planetary/planetary.go:148-159 *)
Definition plMercuryEastElongation (y : R) : option (R * R) := el y micA met mee.
Definition plMercuryWestElongation (y : R) : option (R * R) := el y micA mwt mwe.
(** planetary/planetary.go:162-165 *)
Definition plMarsStation2 (y : R) : option R := ms y moA ms2.

(** ** perihelion *)
(** perihelion/perihelion.go:93-102 *)
Definition pe_ka : list (R * R) := [(4.15201, 2000.12); (1.62549, 2000.53); (0.99997, 2000.01); (0.53166, 2001.78); (0.0843, 2011.2); (0.03393, 2003.52); (0.0119, 2051.1); (0.00607, 2047.5)].
(** perihelion/perihelion.go:104-113 *)
Definition pe_c : list (list R) :=
  [[2451590.257; 87.96934963];
   [2451738.233; 224.7008188; -0.0000000327];
   [2451547.507; 365.2596358; 0.0000000156];
   [2452195.026; 686.9957857; -0.0000001187];
   [2455636.936; 4332.897065; 0.0001367];
   [2452830.12; 10764.21676; 0.000827];
   [2470213.5; 30694.8767; -0.00541];
   [2468895.1; 60190.33; 0.03429]].
(** perihelion/perihelion.go:115-121 *)
Definition pe_ec : list (R * R) := [(328.41, 132.788585); (316.13, 584.903153); (346.2, 450.380738); (136.95, 659.306737); (249.52, 329.653368)].
(** perihelion/perihelion.go:123 *)
Definition pe_ep : list R := [1.278; -0.055; -0.091; -0.056; -0.045].
(** perihelion/perihelion.go:124 *)
Definition pe_ea : list R := [-1.352; 0.061; 0.062; 0.029; 0.031].
(** perihelion/perihelion.go:33-43 *)
Inductive planet := Mercury | Venus | Earth | Mars | Jupiter | Saturn | Uranus | Neptune | EMBary.
Definition pidx (p : planet) : nat :=
  match p with Mercury => 0 | Venus => 1 | Earth => 2 | Mars => 3 | Jupiter => 4 | Saturn => 5 | Uranus => 6 | Neptune => 7 | EMBary => 2 end.
(** perihelion/perihelion.go:54-56, 66-68 *)
Definition pf (x : R) : R := Floor (x + 0.5).
Definition af (x : R) : R := Floor x + 0.5.
(** perihelion/perihelion.go:70-87.  Only the declared planet constants: other
    integers index out of range (panic). *)
Definition pe_k (p : planet) (y : R) (f : R -> R) : R :=
  let '(a, b) := nth (pidx p) pe_ka (0, 0) in f (a * (y - b)).
Definition pe_mean (p : planet) (k : R) : R := HornerR k (nth (pidx p) pe_c []).
Definition pe_corr (c : list R) (k : R) : R :=
  fold_left (fun j x => let '(ci, (ea, eb)) := x in j + ci * sin ((ea + eb * k) * PI / 180)) (combine c pe_ec) 0.
Definition pe_ap (p : planet) (y : R) (a : bool) (f : R -> R) : R :=
  let k := pe_k p y f in
  pe_mean p k + match p with Earth => pe_corr (if a then pe_ea else pe_ep) k | _ => 0 end.
(** perihelion/perihelion.go:50-52, 62-64 *)
Definition Perihelion (p : planet) (y : R) : R := pe_ap p y false pf.
Definition Aphelion (p : planet) (y : R) : R := pe_ap p y true af.

(** perihelion/perihelion.go:165-207: r is the radius of V87Planet.Position2000.
    None: the fuel ran out.  [Panic]: an error of NewLen3 or Extremum. *)
Definition extreme (a : bool) (r0 r1 r2 : R) : bool :=
  if a then Rlt_bool r0 r1 && Rlt_bool r2 r1 else Rlt_bool r1 r0 && Rlt_bool r1 r2.
Fixpoint ap2a_loop (fuel : nat) (r : R -> R) (d : R) (a : bool) (j0 j1 j2 r0 r1 r2 : R) : option (R * R * (R * R * R)) :=
  if extreme a r0 r1 r2 then Some (j0, j2, (r0, r1, r2))
  else
    match fuel with
    | O => None
    | S fuel' =>
        if Bool.eqb (Rlt_bool r0 r2) a
        then let j3 := j2 + d in ap2a_loop fuel' r d a j1 j2 j3 r1 r2 (r j3)
        else let jm := j0 - d in ap2a_loop fuel' r d a jm j0 j1 (r jm) r0 r1
    end.
Inductive search (A : Type) := Running | Panicked | Found (v : A).
Arguments Running {A}. Arguments Panicked {A}. Arguments Found {A} v.
Definition ap2a (fuel : nat) (r : R -> R) (j1 d : R) (a : bool) : search (R * R) :=
  let j0 := j1 - d in
  let j2 := j1 + d in
  match ap2a_loop fuel r d a j0 j1 j2 (r j0) (r j1) (r j2) with
  | None => Running
  | Some (j0, j2, (r0, r1, r2)) =>
      match NewLen3 (fl := RFlt) j0 j2 ([r0; r1; r2] : list R) with
      | Err _ => Panicked
      | Ok l => match Len3_Extremum l with Err _ => Panicked | Ok (x, y) => Found (x, y) end
      end
  end.
(** perihelion/perihelion.go:135-163 *)
Definition ap2 (fuel : nat) (p : planet) (y d : R) (r : R -> R) (a : bool) (f : R -> R) : search (R * R) :=
  let j1 := pe_ap p y a f in
  match p with
  | Neptune =>
      match ap2a fuel r (j1 - 5000) d a, ap2a fuel r (j1 + 5000) d a with
      | Found (j0, r0), Found (j2, r2) => if Bool.eqb (Rlt_bool r2 r0) a then Found (j0, r0) else Found (j2, r2)
      | Panicked, _ => Panicked
      | Found _, Panicked => Panicked
      | _, _ => Running
      end
  | _ => ap2a fuel r j1 d a
  end.
Definition Perihelion2 (fuel : nat) (p : planet) (y d : R) (r : R -> R) := ap2 fuel p y d r false pf.
Definition Aphelion2 (fuel : nat) (p : planet) (y d : R) (r : R -> R) := ap2 fuel p y d r true af.
