(** Specification vocabulary for VSOP87 data files. *)
From Coq Require Import ZArith Bool List Ascii Arith Reals.
Import ListNotations.

(** Lines of a file: each is followed by a line feed, except the last. *)
Definition line_feed : ascii := ascii_of_nat 10.
Fixpoint file_of (lines : list (list ascii)) : list ascii :=
  match lines with
  | [] => []
  | [l] => l
  | l :: ls => l ++ line_feed :: file_of ls
  end.

(** Columns a, ..., b-1 of a line, counted from 0. *)
Definition columns (a b : nat) (l : list ascii) : list ascii := firstn (b - a) (skipn a l).
Definition column (a : nat) (l : list ascii) : option ascii := nth_error l a.

(** A text between blanks. *)
Definition no_blank_ends (t : list ascii) : Prop :=
  t <> [] /\ forall a, In a t -> (33 <= nat_of_ascii a <= 126)%nat.
Definition padded (t l : list ascii) : Prop :=
  exists m n, l = repeat " "%char m ++ t ++ repeat " "%char n.

(** Decimal number. *)
Definition decimal_digit (a : ascii) (d : Z) : Prop := nat_of_ascii a = (48 + Z.to_nat d)%nat /\ (0 <= d <= 9)%Z.
Inductive numeral : list ascii -> Z -> Prop :=
  | numeral1 a d : decimal_digit a d -> numeral [a] d
  | numeralS l v a d : numeral l v -> decimal_digit a d -> numeral (l ++ [a]) (10 * v + d).

Section Files.
Context {F : Type}.
Variable number : list ascii -> option F. (* the number a text stands for *)

(** A data line: A in columns 79-96, B in columns 98-110, C in columns 111-130. *)
Definition data_line (l : list ascii) (t : F * F * F) : Prop :=
  let '(a, b, c) := t in
  (131 <= length l)%nat /\
  (exists ta, no_blank_ends ta /\ padded ta (columns 79 97 l) /\ number ta = Some a) /\
  number (columns 98 111 l) = Some b /\
  (exists tc, no_blank_ends tc /\ padded tc (columns 111 131 l) /\ number tc = Some c).

(** A series of one variable: its power of time, its terms, its lines. *)
Record series := mkseries { s_power : nat; s_header : list ascii; s_lines : list (list ascii); s_terms : list (F * F * F) }.

(** A header line of a file for a body (its name filled up to 7 columns). *)
Definition header_of (body l : list ascii) : Prop :=
  (132 <= length l)%nat /\ column 17 l = Some "2"%char /\ columns 22 29 l = body.
Definition well_formed (body : list ascii) (variable : ascii) (s : series) : Prop :=
  header_of body (s_header s) /\ column 41 (s_header s) = Some variable /\
  (s_power s <= 5)%nat /\ column 59 (s_header s) = Some (ascii_of_nat (48 + s_power s)) /\
  (1 <= length (s_terms s) <= 2047)%nat /\
  (exists t, numeral t (Z.of_nat (length (s_terms s))) /\ padded t (columns 60 67 (s_header s))) /\
  Forall2 data_line (s_lines s) (s_terms s).

Definition lines_of (ss : list series) : list (list ascii) := concat (map (fun s => s_header s :: s_lines s) ss).

(** The terms of the series of power k, none if there is no such series. *)
Definition terms_of (ss : list series) (k : nat) (ts : list (F * F * F)) : Prop :=
  (exists s, In s ss /\ s_power s = k /\ ts = s_terms s) \/ ((forall s, In s ss -> s_power s <> k) /\ ts = []).
End Files.

(** The number of terms a header line declares. *)
Definition declares (l : list ascii) (v : Z) : Prop := exists t, numeral t v /\ padded t (columns 60 67 l).

(** Every header line of the body declares between 1 and 2047 terms, these lines are there and
    not cut off, and its power is 0 to 5.  Nothing is said about any other line, or about what
    is in the columns of the numbers. *)
Definition sound_headers (body : list ascii) (lines : list (list ascii)) : Prop :=
  forall n l, nth_error lines n = Some l -> header_of body l ->
  (exists v, declares l v /\ (1 <= v <= 2047)%Z /\
    forall i, (n < i <= n + Z.to_nat v)%nat -> exists d, nth_error lines i = Some d /\ (131 <= length d)%nat) /\
  (exists p, (p <= 5)%nat /\ column 59 l = Some (ascii_of_nat (48 + p))).
