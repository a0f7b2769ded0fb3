(** Model of package planetposition (v3/planetposition/planetposition.go): loading a VSOP87
    file and evaluating its series. *)
From Coq Require Import ZArith Bool List Ascii Arith.
Import ListNotations.

Notation text := (list ascii).
Definition byte (n : nat) : ascii := ascii_of_nat n.
Definition chr0 : nat := 48. (* '0' *)

(** Go slice expression s[a:b] with constants a <= b; [None] is the bounds panic. *)
Definition slice (s : text) (a b : nat) : option text :=
  if Nat.leb b (length s) then Some (firstn (b - a) (skipn a s)) else None.

(** Go strings.Split(s, "\n"). *)
Fixpoint split_lines (s : text) : list text :=
  match s with
  | [] => [[]]
  | ch :: s' =>
      let r := split_lines s' in
      if Ascii.eqb ch (byte 10) then [] :: r
      else match r with [] => [[ch]] | l :: ls => (ch :: l) :: ls end
  end.

(** Go strings.TrimSpace: the UTF-8 encodings of the runes with unicode.IsSpace are removed
    from both ends. *)
Definition space_runes : list text :=
  map (map byte) ([[9]; [10]; [11]; [12]; [13]; [32]; [194; 133]; [194; 160]; [225; 154; 128];
    [226; 128; 168]; [226; 128; 169]; [226; 128; 175]; [226; 129; 159]; [227; 128; 128]] ++
    map (fun i => [226; 128; 128 + i]) (seq 0 11)).
Fixpoint strip (p s : text) : option text :=
  match p, s with
  | [], _ => Some s
  | a :: p', b :: s' => if Ascii.eqb a b then strip p' s' else None
  | _ :: _, [] => None
  end.
Fixpoint strip_any (ps : list text) (s : text) : option text :=
  match ps with
  | [] => None
  | p :: ps' => match strip p s with Some r => Some r | None => strip_any ps' s end
  end.
Fixpoint trim_with (ps : list text) (fuel : nat) (s : text) : text :=
  match fuel with
  | O => s
  | S f => match strip_any ps s with Some r => trim_with ps f r | None => s end
  end.
Definition TrimSpace (s : text) : text :=
  let l := trim_with space_runes (length s) s in
  rev (trim_with (map (@rev ascii) space_runes) (length l) (rev l)).

(** Go strconv.Atoi for strings of fewer than 19 bytes (its argument here has at most 7). *)
Definition is_digit (a : ascii) : bool := Nat.leb 48 (nat_of_ascii a) && Nat.leb (nat_of_ascii a) 57.
Definition digits_value (s : text) : Z := fold_left (fun v a => 10 * v + Z.of_nat (nat_of_ascii a - 48))%Z s 0%Z.
Definition Atoi (s : text) : option Z :=
  let '(sign, t) := match s with
    | a :: t => if Ascii.eqb a "-"%char then ((-1)%Z, t) else if Ascii.eqb a "+"%char then (1%Z, t) else (1%Z, s)
    | [] => (1%Z, s)
    end in
  match t with [] => None | _ :: _ => if forallb is_digit t then Some (sign * digits_value t)%Z else None end.

(** planetposition/planetposition.go:52-67 *)
Definition b7 (ibody : Z) : text :=
  map byte (nth (Z.to_nat ibody)
    [[77; 69; 82; 67; 85; 82; 89]; [86; 69; 78; 85; 83; 32; 32]; [69; 65; 82; 84; 72; 32; 32]; [77; 65; 82; 83; 32; 32; 32];
     [74; 85; 80; 73; 84; 69; 82]; [83; 65; 84; 85; 82; 78; 32]; [85; 82; 65; 78; 85; 83; 32]; [78; 69; 80; 84; 85; 78; 69]] []).
Definition nPlanets : Z := 8.

Section Load.
Context {F : Type}.
(** strconv.ParseFloat(s, 64) is a parameter; [None] is an error. *)
Variable ParseFloat : text -> option F.

(** planetposition/planetposition.go:70-74 *)
Notation abc := (F * F * F)%type.
(** [6][]abc *)
Notation coeff := (list (list (F * F * F)%type)).
Definition coeff0 : coeff := repeat [] 6.
Fixpoint set_nth {A} (k : nat) (v : A) (l : list A) : list A :=
  match l, k with
  | [], _ => []
  | _ :: l', O => v :: l'
  | x :: l', S k' => x :: set_nth k' v l'
  end.

(** Errors, with the line number printed in them. *)
Inductive perror := EVersion (line : nat) | EBody (line : nat) | ECount (line : nat) | EEnd | EFloat (line : nat)
  | EPlanet | ERead.

Inductive dres := DTerms (l : list abc) | DError (cx : nat) | DPanic.
(** planetposition/planetposition.go:161-180, the loop over the lines of a series; cbuf has 2047 elements. *)
Fixpoint data (cx : nat) (ls : list text) : dres :=
  match ls with
  | [] => DTerms []
  | line :: ls' =>
      if Nat.leb 2047 cx then DPanic else
      match slice line 79 97 with None => DPanic | Some fa =>
      match ParseFloat (TrimSpace fa) with None => DError cx | Some a =>
      match slice line 98 111 with None => DPanic | Some fb =>
      match ParseFloat fb with None => DError cx | Some b =>
      match slice line 111 131 with None => DPanic | Some fc =>
      match ParseFloat (TrimSpace fc) with None => DError cx | Some c =>
      match data (S cx) ls' with DTerms l => DTerms ((a, b, c) :: l) | r => r end
      end end end end end end
  end.

Inductive sres := SNext (n : nat) (c : coeff) | SDone (n : nat) (c : coeff) (e : option perror) | SPanic.
(** planetposition/planetposition.go:129-184, one round of the loop. *)
Definition step (ic : ascii) (ibody : Z) (lines : list text) (n : nat) (c : coeff) : sres :=
  match nth_error lines n with
  | None => SDone n c None
  | Some line =>
      if Nat.ltb (length line) 132 then SDone n c None else
      if negb (Ascii.eqb (nth 41 line zero) ic) then SDone n c None else
      if negb (Ascii.eqb (nth 17 line zero) "2"%char) then SDone n c (Some (EVersion (n + 1))) else
      match slice line 22 29 with None => SPanic | Some bo =>
      if negb (if list_eq_dec ascii_dec bo (b7 ibody) then true else false) then SDone n c (Some (EBody (n + 1))) else
      (* byte arithmetic wraps *)
      let it := ((nat_of_ascii (nth 59 line zero) + 256 - 48) mod 256)%nat in
      match slice line 60 67 with None => SPanic | Some fi =>
      match Atoi (TrimSpace fi) with
      | None => SDone n c (Some (ECount (n + 1)))
      | Some num =>
          if (num =? 0)%Z then SNext n c else
          if (Z.of_nat (length lines - n) <? num)%Z then SDone n c (Some EEnd) else
          let n1 := S n in
          (* lines[n : n+in]; the slice made by Split has no spare capacity *)
          if ((num <? 0) || (Z.of_nat (length lines) <? Z.of_nat n1 + num))%Z then SPanic else
          match data 0 (firstn (Z.to_nat num) (skipn n1 lines)) with
          | DPanic => SPanic
          | DError cx => SDone n1 c (Some (EFloat (n1 + cx + 1)))
          | DTerms ts => if Nat.leb 6 it then SPanic else SNext (n1 + Z.to_nat num) (set_nth it ts c)
          end
      end end end
  end.

(** The loop, for [fuel] rounds; [None] while it is still running. *)
Inductive pres := PRet (n : nat) (c : coeff) (e : option perror) | PPanic.
Fixpoint parse (fuel : nat) (ic : ascii) (ibody : Z) (lines : list text) (n : nat) (c : coeff) : option pres :=
  match fuel with
  | O => None
  | S f => match step ic ibody lines n c with
      | SNext n' c' => parse f ic ibody lines n' c'
      | SDone n' c' e => Some (PRet n' c' e)
      | SPanic => Some PPanic
      end
  end.

(** planetposition/planetposition.go:100-127.  [file] is the result of reading the file; [None] is an
    outcome not reached in [fuel] rounds of each loop. *)
Record V87Planet := mkV87 { v_l : coeff; v_b : coeff; v_r : coeff }.
Inductive lres := LPlanet (v : V87Planet) | LError (e : perror) | LPanic.
Definition LoadPlanetPath (fuel : nat) (ibody : Z) (file : option text) : option lres :=
  if ((ibody <? 0) || (nPlanets <=? ibody))%Z then Some (LError EPlanet) else
  match file with
  | None => Some (LError ERead)
  | Some content =>
      let lines := split_lines content in
      match parse fuel "1"%char ibody lines 0 coeff0 with
      | None => None | Some PPanic => Some LPanic | Some (PRet _ _ (Some e)) => Some (LError e)
      | Some (PRet n l None) =>
      match parse fuel "2"%char ibody lines n coeff0 with
      | None => None | Some PPanic => Some LPanic | Some (PRet _ _ (Some e)) => Some (LError e)
      | Some (PRet n b None) =>
      match parse fuel "3"%char ibody lines n coeff0 with
      | None => None | Some PPanic => Some LPanic | Some (PRet _ _ (Some e)) => Some (LError e)
      | Some (PRet _ r None) => Some (LPlanet (mkV87 l b r))
      end end end
  end.
End Load.
