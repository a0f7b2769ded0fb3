(** Lemmas about loading VSOP87 files. *)
From Coq Require Import ZArith Bool List Ascii Arith Lia.
From Verif Require Import M_vsop S_vsop.
Import ListNotations.

(** ** Lines *)
Lemma split_cons_nonempty s : split_lines s <> [].
Proof. destruct s as [|a s]; cbn [split_lines]; [discriminate|]. destruct (Ascii.eqb a (byte 10)); [discriminate|]. destruct (split_lines s); discriminate. Qed.
Lemma split_line l : ~ In line_feed l -> split_lines l = [l].
Proof.
  induction l as [|a l IH]; intros H; [reflexivity|]. cbn [split_lines]. change (byte 10) with line_feed.
  destruct (Ascii.eqb_spec a line_feed) as [E|E]; [exfalso; apply H; left; exact E|]. rewrite IH; [reflexivity|]. intros I. apply H. right. exact I.
Qed.
Lemma split_app l r : ~ In line_feed l -> split_lines (l ++ line_feed :: r) = l :: split_lines r.
Proof.
  induction l as [|a l IH]; intros H; [reflexivity|]. cbn [split_lines app]. change (byte 10) with line_feed.
  destruct (Ascii.eqb_spec a line_feed) as [E|E]; [exfalso; apply H; left; exact E|]. rewrite IH; [reflexivity|]. intros I. apply H. right. exact I.
Qed.
Lemma split_file lines : lines <> [] -> (forall l, In l lines -> ~ In line_feed l) -> split_lines (file_of lines) = lines.
Proof.
  induction lines as [|l ls IH]; intros N H; [contradiction|]. destruct ls as [|l2 ls].
  - apply split_line, H. left. reflexivity.
  - change (file_of (l :: l2 :: ls)) with (l ++ line_feed :: file_of (l2 :: ls)). rewrite split_app by (apply H; left; reflexivity).
    f_equal. apply IH; [discriminate|]. intros k I. apply H. right. exact I.
Qed.

(** ** Blanks *)
Definition blank : ascii := " "%char.
Definition printable (a : ascii) : Prop := (33 <= nat_of_ascii a <= 126)%nat.
Lemma strip_blank s : strip_any space_runes (blank :: s) = Some s.
Proof. reflexivity. Qed.
Lemma strip_blank_rev s : strip_any (map (@rev ascii) space_runes) (blank :: s) = Some s.
Proof. reflexivity. Qed.
Lemma strip_printable a s : printable a -> strip_any space_runes (a :: s) = None /\ strip_any (map (@rev ascii) space_runes) (a :: s) = None.
Proof.
  unfold printable. intros H. destruct a as [[] [] [] [] [] [] [] []]; cbv in H; try lia; split; reflexivity.
Qed.
Lemma trim_blanks ps m t fuel : (forall s, strip_any ps (blank :: s) = Some s) ->
  (forall a s, printable a -> strip_any ps (a :: s) = None) ->
  (m <= fuel)%nat -> (exists a t', t = a :: t' /\ printable a) -> trim_with ps fuel (repeat blank m ++ t) = t.
Proof.
  intros B P. revert fuel. induction m as [|m IH]; intros fuel Hf (a & t' & -> & Pa).
  - cbn [repeat app]. destruct fuel; cbn [trim_with]; [reflexivity|]. rewrite P by exact Pa. reflexivity.
  - destruct fuel as [|fuel]; [lia|]. change (repeat blank (S m) ++ a :: t') with (blank :: repeat blank m ++ a :: t'). cbn [trim_with].
    rewrite B. apply IH; [lia|]. exists a, t'. now split.
Qed.
Lemma repeat_rev {A} (x : A) n : rev (repeat x n) = repeat x n.
Proof.
  induction n as [|n IH]; [reflexivity|]. cbn [repeat rev]. rewrite IH. clear IH. induction n as [|n IH]; [reflexivity|]. cbn [repeat app]. now rewrite IH.
Qed.
Lemma Trim_padded t l : no_blank_ends t -> padded t l -> TrimSpace l = t.
Proof.
  intros [N P] (m & n & ->). change " "%char with blank. unfold TrimSpace. cbv zeta.
  assert (Q : forall a s, printable a -> strip_any space_runes (a :: s) = None) by (intros a s H; apply (proj1 (strip_printable a s H))).
  assert (Q2 : forall a s, printable a -> strip_any (map (@rev ascii) space_runes) (a :: s) = None) by (intros a s H; apply (proj2 (strip_printable a s H))).
  assert (E1 : trim_with space_runes (length (repeat blank m ++ t ++ repeat blank n)) (repeat blank m ++ t ++ repeat blank n) = t ++ repeat blank n).
  { apply (trim_blanks _ _ _ _ strip_blank Q). - rewrite app_length, repeat_length. lia.
    - destruct t as [|a t]; [contradiction|]. exists a, (t ++ repeat blank n). split; [reflexivity|]. apply P. left. reflexivity. }
  rewrite E1. rewrite rev_app_distr, repeat_rev.
  assert (E2 : trim_with (map (@rev ascii) space_runes) (length (t ++ repeat blank n)) (repeat blank n ++ rev t) = rev t).
  { apply (trim_blanks _ _ _ _ strip_blank_rev Q2). - rewrite app_length, repeat_length. lia.
    - destruct (rev t) as [|a r] eqn:E; [exfalso; apply N; rewrite <- (rev_involutive t), E; reflexivity|].
      exists a, r. split; [reflexivity|]. apply P. rewrite in_rev, E. left. reflexivity. }
  rewrite E2. apply rev_involutive.
Qed.

(** ** Numerals *)
Lemma digit_facts a d : decimal_digit a d -> is_digit a = true /\ Z.of_nat (nat_of_ascii a - 48) = d /\ printable a /\ a <> "-"%char /\ a <> "+"%char.
Proof.
  intros [H D]. unfold is_digit, printable. rewrite H. repeat split; try lia.
  - rewrite andb_true_iff, !Nat.leb_le. lia.
  - intros ->. cbv in H. destruct d; cbn in H; lia.
  - intros ->. cbv in H. destruct d; cbn in H; lia.
Qed.
Lemma numeral_facts t v : numeral t v -> forallb is_digit t = true /\ digits_value t = v /\ (0 <= v)%Z /\
  (exists a t', t = a :: t' /\ a <> "-"%char /\ a <> "+"%char) /\ forall a, In a t -> printable a.
Proof.
  induction 1 as [a d D|l v a d N IH D].
  - destruct (digit_facts a d D) as (A & B & C & M & P). cbn [forallb]. rewrite A. unfold digits_value. cbn [fold_left]. rewrite B.
    split; [reflexivity|]. split; [lia|]. split; [destruct D; lia|]. split; [exists a, []; repeat split; assumption|]. intros x [<- | []]. exact C.
  - destruct IH as (A & B & C & (x & t' & -> & M1 & M2) & P). destruct (digit_facts a d D) as (A' & B' & C' & M' & P').
    split; [|split; [|split; [|split]]].
    + rewrite forallb_app, A. cbn. now rewrite A'.
    + unfold digits_value in *. rewrite fold_left_app, B. cbn [fold_left]. rewrite B'. reflexivity.
    + destruct D; lia.
    + exists x, (t' ++ [a]). repeat split; assumption.
    + intros y I. apply in_app_or in I. destruct I as [I|[<- | []]]; [apply P, I|exact C'].
Qed.
Lemma Atoi_numeral t l v : numeral t v -> padded t l -> Atoi (TrimSpace l) = Some v.
Proof.
  intros N P. destruct (numeral_facts t v N) as (A & B & C & (x & t' & E & M1 & M2) & Q).
  rewrite (Trim_padded t l); [|split; [rewrite E; discriminate|exact Q]|exact P]. unfold Atoi. rewrite E in *.
  destruct (Ascii.eqb_spec x "-"%char) as [|_]; [contradiction|]. destruct (Ascii.eqb_spec x "+"%char) as [|_]; [contradiction|].
  rewrite A. rewrite B. f_equal. lia.
Qed.

Lemma slice_columns l a b : (b <= length l)%nat -> slice l a b = Some (columns a b l).
Proof. intros H. unfold slice. rewrite (proj2 (Nat.leb_le _ _) H). reflexivity. Qed.
Lemma column_nth l k a : column k l = Some a -> nth k l zero = a.
Proof. intros H. unfold column in H. apply nth_error_nth with (d := zero) in H. exact H. Qed.

Lemma Forall2_len {A B} (P : A -> B -> Prop) l m : Forall2 P l m -> length l = length m.
Proof. induction 1; cbn; congruence. Qed.

Section Load.
Context {F : Type}.
Variable pf : text -> option F.
Notation abc := (F * F * F)%type.
Notation coeff := (list (list (F * F * F)%type)).

(** ** Data lines *)
Lemma data_terms ls ts cx : Forall2 (data_line pf) ls ts -> (cx + length ts <= 2047)%nat -> data pf cx ls = DTerms ts.
Proof.
  intros H. revert cx. induction H as [|l [[a b] c] ls ts D H IH]; intros cx Hc; [reflexivity|].
  cbn [length] in Hc. cbn [data]. destruct D as (L & (ta & Na & Pa & Ea) & Eb & (tc & Nc & Pc & Ec)).
  rewrite (proj2 (Nat.leb_gt 2047 cx)) by lia. rewrite !slice_columns by lia. rewrite (Trim_padded ta _ Na Pa), Ea, Eb, (Trim_padded tc _ Nc Pc), Ec.
  rewrite IH by lia. reflexivity.
Qed.
Lemma data_safe ls cx : (forall l, In l ls -> (131 <= length l)%nat) -> (cx + length ls <= 2047)%nat -> data pf cx ls <> DPanic.
Proof.
  revert cx. induction ls as [|l ls IH]; intros cx H Hc; [discriminate|]. cbn [data length] in *.
  assert (L : (131 <= length l)%nat) by (apply H; left; reflexivity).
  rewrite (proj2 (Nat.leb_gt 2047 cx)) by lia. rewrite !slice_columns by lia.
  destruct (pf _); [|discriminate]. destruct (pf _); [|discriminate]. destruct (pf _); [|discriminate].
  specialize (IH (S cx) ltac:(intros k I; apply H; right; exact I) ltac:(lia)). destruct (data pf (S cx) ls); congruence.
Qed.

(** ** Headers *)
Definition head_of (ic : ascii) (ibody : Z) (l : text) : Prop := header_of (b7 ibody) l /\ column 41 l = Some ic.
Definition counts (l : text) (v : Z) : Prop := exists t, numeral t v /\ padded t (columns 60 67 l).
Lemma step_header ic ibody lines n c l v : nth_error lines n = Some l -> head_of ic ibody l -> counts l v ->
  step pf ic ibody lines n c =
    (if (v =? 0)%Z then SNext n c else
     if (Z.of_nat (length lines - n) <? v)%Z then SDone n c (Some EEnd) else
     if ((v <? 0) || (Z.of_nat (length lines) <? Z.of_nat (S n) + v))%Z then SPanic else
     match data pf 0 (firstn (Z.to_nat v) (skipn (S n) lines)) with
     | DPanic => SPanic
     | DError cx => SDone (S n) c (Some (EFloat (S n + cx + 1)))
     | DTerms ts => if Nat.leb 6 ((nat_of_ascii (nth 59 l zero) + 256 - 48) mod 256) then SPanic
         else SNext (S n + Z.to_nat v) (set_nth ((nat_of_ascii (nth 59 l zero) + 256 - 48) mod 256) ts c)
     end).
Proof.
  intros E ((L & V & B) & I) (t & N & P). unfold step. rewrite E. rewrite (proj2 (Nat.ltb_ge _ _)) by lia.
  rewrite (column_nth _ _ _ I), (column_nth _ _ _ V), !Ascii.eqb_refl. cbn [negb]. rewrite !slice_columns by lia. rewrite B.
  destruct (list_eq_dec ascii_dec (b7 ibody) (b7 ibody)) as [_|X]; [|contradiction]. cbn [negb]. rewrite (Atoi_numeral t _ v N P). cbv zeta. reflexivity.
Qed.
Lemma step_stop ic ibody (lines : list text) n c : (forall l : text, nth_error lines n = Some l -> (length l < 132)%nat \/ column 41 l <> Some ic) ->
  step pf ic ibody lines n c = SDone n c None.
Proof.
  intros H. unfold step. destruct (nth_error lines n) as [l|] eqn:E; [|reflexivity]. destruct (Nat.ltb_spec (length l) 132) as [|L]; [reflexivity|].
  destruct (H l eq_refl) as [|C]; [lia|]. destruct (Ascii.eqb_spec (nth 41 l zero) ic) as [X|X]; [|reflexivity]. exfalso. apply C. unfold column.
  rewrite (nth_error_nth' l zero) by lia. congruence.
Qed.

Lemma skipn_app_exact {A} (a b : list A) : skipn (length a) (a ++ b) = b.
Proof. rewrite skipn_app, skipn_all, Nat.sub_diag. reflexivity. Qed.
Lemma firstn_app_exact {A} (a b : list A) : firstn (length a) (a ++ b) = a.
Proof. rewrite firstn_app, firstn_all, Nat.sub_diag. cbn. apply app_nil_r. Qed.

Lemma step_series ic ibody s pre post c : well_formed pf (b7 ibody) ic s ->
  step pf ic ibody (pre ++ (s_header s :: s_lines s) ++ post) (length pre) c =
    SNext (length (pre ++ s_header s :: s_lines s)) (set_nth (s_power s) (s_terms s) c).
Proof.
  intros (H & I & P5 & C59 & Len & (t & N & P) & D). pose proof (Forall2_len _ _ _ D) as LD.
  rewrite (step_header ic ibody _ _ _ (s_header s) (Z.of_nat (length (s_terms s)))); [| |split; assumption|exists t; split; assumption].
  2:{ rewrite nth_error_app2 by lia. rewrite Nat.sub_diag. reflexivity. }
  rewrite !app_length. cbn [length]. rewrite (proj2 (Z.eqb_neq _ _)) by lia. rewrite (proj2 (Z.ltb_ge _ _)) by lia.
  rewrite (proj2 (Z.ltb_ge _ 0)) by lia. rewrite (proj2 (Z.ltb_ge (Z.of_nat _) _)) by lia. cbn [orb]. rewrite Nat2Z.id.
  replace (skipn (S (length pre)) (pre ++ (s_header s :: s_lines s) ++ post)) with (s_lines s ++ post).
  2:{ replace (S (length pre)) with (length (pre ++ [s_header s])) by (rewrite app_length; cbn; lia).
      replace (pre ++ (s_header s :: s_lines s) ++ post) with ((pre ++ [s_header s]) ++ s_lines s ++ post) by (rewrite <- app_assoc; reflexivity).
      now rewrite skipn_app_exact. }
  rewrite <- LD, firstn_app_exact. rewrite (data_terms _ _ 0 D) by lia. rewrite (column_nth _ _ _ C59).
  assert (Ei : ((nat_of_ascii (ascii_of_nat (48 + s_power s)) + 256 - 48) mod 256)%nat = s_power s).
  { rewrite nat_ascii_embedding by lia. replace (48 + s_power s + 256 - 48)%nat with (s_power s + 1 * 256)%nat by lia. rewrite Nat.mod_add by lia. apply Nat.mod_small. lia. }
  rewrite Ei. rewrite (proj2 (Nat.leb_gt 6 _)) by lia. f_equal. lia.
Qed.

Lemma parse_series ic ibody ss post : (forall l, hd_error post = Some l -> (length l < 132)%nat \/ column 41 l <> Some ic) ->
  (forall s, In s ss -> well_formed pf (b7 ibody) ic s) -> forall pre c fuel, (length ss < fuel)%nat ->
  parse pf fuel ic ibody (pre ++ lines_of ss ++ post) (length pre) c =
    Some (PRet (length (pre ++ lines_of ss)) (fold_left (fun c s => set_nth (s_power s) (s_terms s) c) ss c) None).
Proof.
  intros Hp. induction ss as [|s ss IH]; intros W pre c fuel Hf; (destruct fuel as [|fuel]; [lia|]); cbn [parse].
  - change (lines_of []) with (@nil text). cbn [app fold_left]. rewrite app_nil_r. rewrite step_stop; [reflexivity|].
    intros l E. apply Hp. rewrite nth_error_app2, Nat.sub_diag in E by lia. destruct post; exact E.
  - change (lines_of (s :: ss)) with ((s_header s :: s_lines s) ++ lines_of ss). rewrite <- (app_assoc (s_header s :: s_lines s)).
    rewrite step_series by (apply W; left; reflexivity). cbn [length] in Hf.
    replace (pre ++ (s_header s :: s_lines s) ++ lines_of ss ++ post) with ((pre ++ s_header s :: s_lines s) ++ lines_of ss ++ post) by (rewrite <- app_assoc; reflexivity).
    rewrite IH; [|intros x I; apply W; right; exact I|lia]. cbn [fold_left]. do 2 f_equal. now rewrite <- app_assoc.
Qed.

Lemma set_nth_length {A} k (v : A) l : length (set_nth k v l) = length l.
Proof. revert k. induction l as [|x l IH]; intros k; [destruct k; reflexivity|]. destruct k; cbn; [reflexivity|]. now rewrite IH. Qed.
Lemma nth_set_nth {A} k j (v d : A) l : nth j (set_nth k v l) d = if (j =? k)%nat && (k <? length l)%nat then v else nth j l d.
Proof.
  revert k j. induction l as [|x l IH]; intros k j.
  - cbn. rewrite andb_false_r. destruct k; reflexivity.
  - destruct k, j; cbn [set_nth nth Nat.eqb length]; try reflexivity. rewrite IH. reflexivity.
Qed.
Definition collect (ss : list (@series F)) (c : coeff) : coeff := fold_left (fun c s => set_nth (s_power s) (s_terms s) c) ss c.
Lemma collect_terms ss : NoDup (map s_power ss) -> (forall s, In s ss -> (s_power s <= 5)%nat) ->
  length (collect ss coeff0) = 6%nat /\ forall k, terms_of ss k (nth k (collect ss coeff0) []).
Proof.
  intros ND W. unfold collect.
  assert (G : forall c : coeff, length c = 6%nat ->
    let r := fold_left (fun c s => set_nth (s_power s) (s_terms s) c) ss c in
    length r = 6%nat /\ forall k, (exists s, In s ss /\ s_power s = k /\ nth k r [] = s_terms s) \/ ((forall s, In s ss -> s_power s <> k) /\ nth k r [] = nth k c [])).
  { induction ss as [|s ss IH]; intros c Hc; cbv zeta; cbn [fold_left].
    - split; [exact Hc|]. intros k. right. split; [intros s []|reflexivity].
    - cbn [map] in ND. inversion ND as [|x xs NI ND' E]. subst.
      destruct (IH ND' ltac:(intros x I; apply W; right; exact I) (set_nth (s_power s) (s_terms s) c) ltac:(rewrite set_nth_length; exact Hc)) as [L K].
      split; [exact L|]. intros k. destruct (K k) as [(x & I & E & V)|[Q V]].
      + left. exists x. split; [right; exact I|]. split; assumption.
      + rewrite nth_set_nth, Hc in V. destruct (Nat.eqb_spec k (s_power s)) as [Ek|Ek].
        * left. exists s. split; [left; reflexivity|]. split; [congruence|]. rewrite V. rewrite (proj2 (Nat.ltb_lt _ 6)); [reflexivity|].
          assert (s_power s <= 5)%nat by (apply W; left; reflexivity). lia.
        * right. cbn [andb] in V. split; [|exact V]. intros x [<- |I]; [congruence|apply Q, I]. }
  destruct (G coeff0 eq_refl) as [L K]. split; [exact L|]. intros k. destruct (K k) as [(s & I & E & V)|[Q V]].
  - left. exists s. repeat split; assumption.
  - right. split; [exact Q|]. rewrite V. unfold coeff0. do 7 (destruct k as [|k]; [reflexivity|]). destruct k; reflexivity.
Qed.

Lemma Load_file ibody ss1 ss2 ss3 rest lines fuel : (0 <= ibody < 8)%Z ->
  (forall s, In s ss1 -> well_formed pf (b7 ibody) "1"%char s) -> (forall s, In s ss2 -> well_formed pf (b7 ibody) "2"%char s) ->
  (forall s, In s ss3 -> well_formed pf (b7 ibody) "3"%char s) ->
  NoDup (map s_power ss1) -> NoDup (map s_power ss2) -> NoDup (map s_power ss3) ->
  (forall l, hd_error rest = Some l -> (length l < 132)%nat) ->
  lines = lines_of ss1 ++ lines_of ss2 ++ lines_of ss3 ++ rest -> lines <> [] -> (forall l, In l lines -> ~ In line_feed l) ->
  (length lines < fuel)%nat ->
  exists v, LoadPlanetPath pf fuel ibody (Some (file_of lines)) = Some (LPlanet v) /\
    length (v_l v) = 6%nat /\ length (v_b v) = 6%nat /\ length (v_r v) = 6%nat /\
    forall k, terms_of ss1 k (nth k (v_l v) []) /\ terms_of ss2 k (nth k (v_b v) []) /\ terms_of ss3 k (nth k (v_r v) []).
Proof.
  intros Hb W1 W2 W3 N1 N2 N3 R E NE LF Hf. unfold LoadPlanetPath, nPlanets.
  rewrite (proj2 (Z.ltb_ge ibody 0)), (proj2 (Z.leb_gt 8 ibody)) by lia. cbn [orb]. cbv zeta. rewrite split_file by assumption.
  assert (LL : forall ss : list (@series F), (length ss <= length (lines_of ss))%nat).
  { induction ss as [|s ss IH]; [cbn; lia|]. change (lines_of (s :: ss)) with ((s_header s :: s_lines s) ++ lines_of ss). rewrite app_length. cbn [length]. lia. }
  pose proof (LL ss1) as LL1. pose proof (LL ss2) as LL2. pose proof (LL ss3) as LL3.
  assert (LN : length lines = (length (lines_of ss1) + (length (lines_of ss2) + (length (lines_of ss3) + length rest)))%nat) by (rewrite E, !app_length; reflexivity).
  assert (HD : forall ic x ss r, (forall s, In s ss -> well_formed pf (b7 ibody) x s) -> x <> ic ->
     (forall l, hd_error r = Some l -> (length l < 132)%nat \/ column 41 l <> Some ic) ->
     forall l, hd_error (lines_of ss ++ r) = Some l -> (length l < 132)%nat \/ column 41 l <> Some ic).
  { intros ic x ss r W X HR l. destruct ss as [|s ss]; [apply HR|]. change (lines_of (s :: ss)) with ((s_header s :: s_lines s) ++ lines_of ss). cbn [app hd_error]. intros [= <-]. right. destruct (W s ltac:(left; reflexivity)) as (_ & C & _). rewrite C. congruence. }
  assert (R' : forall ic l, hd_error rest = Some l -> (length l < 132)%nat \/ column 41 l <> Some ic) by (intros ic l H; left; apply R, H).
  rewrite E.
  pose proof (parse_series "1"%char ibody ss1 (lines_of ss2 ++ lines_of ss3 ++ rest) (HD "1"%char "2"%char ss2 _ W2 ltac:(discriminate) (HD "1"%char "3"%char ss3 _ W3 ltac:(discriminate) (R' _))) W1 [] coeff0 fuel ltac:(lia)) as X1. cbn [app length] in X1. rewrite X1. clear X1.
  cbn [app].
  rewrite (parse_series "2"%char ibody ss2 (lines_of ss3 ++ rest) (HD "2"%char "3"%char ss3 _ W3 ltac:(discriminate) (R' _)) W2 (lines_of ss1) coeff0 fuel ltac:(lia)).
  rewrite (app_assoc (lines_of ss1)).
  rewrite (parse_series "3"%char ibody ss3 rest (R' _) W3 (lines_of ss1 ++ lines_of ss2) coeff0 fuel ltac:(lia)).
  eexists. split; [reflexivity|]. cbn [v_l v_b v_r].
  assert (P5 : forall x ss, (forall s, In s ss -> well_formed pf (b7 ibody) x s) -> forall s, In s ss -> (s_power s <= 5)%nat) by (intros x ss W s I; apply W in I; apply I).
  destruct (collect_terms ss1 N1 (P5 _ _ W1)) as [A1 B1]. destruct (collect_terms ss2 N2 (P5 _ _ W2)) as [A2 B2]. destruct (collect_terms ss3 N3 (P5 _ _ W3)) as [A3 B3].
  repeat split; try assumption; [apply B1|apply B2|apply B3].
Qed.
End Load.

Lemma power_index p : (p <= 200)%nat -> ((nat_of_ascii (ascii_of_nat (48 + p)) + 256 - 48) mod 256)%nat = p.
Proof.
  intros H. rewrite nat_ascii_embedding by lia. replace (48 + p + 256 - 48)%nat with (p + 1 * 256)%nat by lia. rewrite Nat.mod_add by lia. apply Nat.mod_small. lia.
Qed.
Section Safety.
Context {F : Type}.
Variable pf : text -> option F.
Notation coeff := (list (list (F * F * F)%type)).

Lemma header_dec body (l : text) : {header_of body l} + {~ header_of body l}.
Proof.
  unfold header_of, column. destruct (le_dec 132 (length l)); [|right; tauto].
  destruct (nth_error l 17) as [a|]; [|right; intros (_ & H & _); discriminate].
  destruct (ascii_dec a "2"%char) as [->|]; [|right; intros (_ & H & _); congruence].
  destruct (list_eq_dec ascii_dec (columns 22 29 l) body); [left; auto|right; tauto].
Qed.
(** A line that is not a header of the body ends the loop. *)
Lemma step_other ic ibody (lines : list text) n (c : coeff) l : nth_error lines n = Some l -> ~ header_of (b7 ibody) l ->
  exists e, step pf ic ibody lines n c = SDone n c e.
Proof.
  intros E H. unfold step. rewrite E. destruct (Nat.ltb_spec (length l) 132) as [|L]; [eexists; reflexivity|].
  destruct (negb (Ascii.eqb (nth 41 l zero) ic)); [eexists; reflexivity|].
  destruct (Ascii.eqb_spec (nth 17 l zero) "2"%char) as [V|V]; [|eexists; reflexivity]. cbn [negb]. rewrite slice_columns by lia.
  destruct (list_eq_dec ascii_dec (columns 22 29 l) (b7 ibody)) as [B|B]; [|eexists; reflexivity].
  exfalso. apply H. repeat split; [lia| |exact B]. unfold column. rewrite (nth_error_nth' l zero) by lia. congruence.
Qed.
Lemma step_safe ic ibody (lines : list text) n (c : coeff) : sound_headers (b7 ibody) lines ->
  (exists e n', step pf ic ibody lines n c = SDone n' c e) \/ (exists n' c', step pf ic ibody lines n c = SNext n' c' /\ (n < n')%nat /\ (n < length lines)%nat).
Proof.
  intros S. destruct (nth_error lines n) as [l|] eqn:E.
  2:{ left. exists None, n. unfold step. now rewrite E. }
  destruct (header_dec (b7 ibody) l) as [H|H]; [|left; destruct (step_other ic ibody lines n c l E H) as (e & Q); exists e, n; exact Q].
  destruct (column 41 l) as [x|] eqn:C.
  2:{ left. exists None, n. apply step_stop. intros k Ek. right. congruence. }
  destruct (ascii_dec x ic) as [->|X].
  2:{ left. exists None, n. apply step_stop. intros k Ek. right. congruence. }
  assert (Ln : (n < length lines)%nat) by (apply nth_error_Some; congruence).
  destruct (S n l E H) as [(v & D & V & I) (p & P & C59)].
  assert (Lv : (n + Z.to_nat v < length lines)%nat).
  { destruct (I (n + Z.to_nat v)%nat ltac:(lia)) as (d & Ed & _). apply nth_error_Some. congruence. }
  rewrite (step_header pf ic ibody lines n c l v E (conj H C) D).
  rewrite (proj2 (Z.eqb_neq v 0)) by lia. rewrite (proj2 (Z.ltb_ge _ v)) by lia. rewrite (proj2 (Z.ltb_ge v 0)) by lia.
  rewrite (proj2 (Z.ltb_ge (Z.of_nat _) _)) by lia. cbn [orb].
  pose proof (data_safe pf (firstn (Z.to_nat v) (skipn (Datatypes.S n) lines)) 0) as DS.
  assert (LF : length (firstn (Z.to_nat v) (skipn (Datatypes.S n) lines)) = Z.to_nat v) by (rewrite firstn_length, skipn_length; lia).
  destruct (data pf 0 (firstn (Z.to_nat v) (skipn (Datatypes.S n) lines))) as [ts|cx|] eqn:ED.
  - right. rewrite (column_nth _ _ _ C59), power_index by lia. rewrite (proj2 (Nat.leb_gt 6 p)) by lia. eexists _, _. split; [reflexivity|]. lia.
  - left. eexists _, _. reflexivity.
  - exfalso. apply DS; [|lia|reflexivity]. intros d Id. apply In_nth_error in Id. destruct Id as [i Ei].
    assert (Hi : (i < Z.to_nat v)%nat) by (rewrite <- LF; apply nth_error_Some; congruence).
    destruct (I (Datatypes.S n + i)%nat ltac:(lia)) as (d' & Ed' & Ld').
    assert (Q : nth_error (firstn (Z.to_nat v) (skipn (Datatypes.S n) lines)) i = nth_error lines (Datatypes.S n + i)).
    { rewrite <- (firstn_skipn (Datatypes.S n) lines) at 2. rewrite nth_error_app2; rewrite firstn_length; [|lia].
      replace (Datatypes.S n + i - Nat.min (Datatypes.S n) (length lines))%nat with i by lia.
      rewrite <- (firstn_skipn (Z.to_nat v) (skipn (Datatypes.S n) lines)) at 2. rewrite nth_error_app1 by lia. reflexivity. }
    congruence.
Qed.
Lemma parse_safe ic ibody (lines : list text) : sound_headers (b7 ibody) lines ->
  forall fuel n (c : coeff), (length lines - n < fuel)%nat -> exists n' c' e, parse pf fuel ic ibody lines n c = Some (PRet n' c' e).
Proof.
  intros S. induction fuel as [|fuel IH]; intros n c Hf; [lia|]. cbn [parse].
  destruct (step_safe ic ibody lines n c S) as [(e & n' & ->)|(n' & c' & -> & L1 & L2)]; [eexists _, _, _; reflexivity|].
  apply IH. lia.
Qed.
Lemma Load_safe ibody file fuel : (forall content, file = Some content -> sound_headers (b7 ibody) (split_lines content) /\ (length (split_lines content) < fuel)%nat) ->
  exists r, LoadPlanetPath pf fuel ibody file = Some r /\ r <> LPanic.
Proof.
  intros H. unfold LoadPlanetPath. destruct ((ibody <? 0)%Z || (nPlanets <=? ibody)%Z); [eexists; split; [reflexivity|discriminate]|].
  destruct file as [content|]; [|eexists; split; [reflexivity|discriminate]]. destruct (H content eq_refl) as [S Hf]. cbv zeta.
  destruct (parse_safe "1"%char ibody _ S fuel 0%nat coeff0 ltac:(lia)) as (n1 & c1 & e1 & ->). destruct e1; [eexists; split; [reflexivity|discriminate]|].
  destruct (parse_safe "2"%char ibody _ S fuel n1 coeff0 ltac:(lia)) as (n2 & c2 & e2 & ->). destruct e2; [eexists; split; [reflexivity|discriminate]|].
  destruct (parse_safe "3"%char ibody _ S fuel n2 coeff0 ltac:(lia)) as (n3 & c3 & e3 & ->). destruct e3; eexists; (split; [reflexivity|discriminate]).
Qed.

(** ** Files for which loading does not end, or panics *)
Lemma Load_lines ibody lines fuel : (0 <= ibody < 8)%Z -> lines <> [] -> (forall l, In l lines -> ~ In line_feed l) ->
  (parse pf fuel "1"%char ibody lines 0 coeff0 = None -> LoadPlanetPath pf fuel ibody (Some (file_of lines)) = None) /\
  (parse pf fuel "1"%char ibody lines 0 coeff0 = Some PPanic -> LoadPlanetPath pf fuel ibody (Some (file_of lines)) = Some LPanic).
Proof.
  intros Hb N LF. unfold LoadPlanetPath, nPlanets. rewrite (proj2 (Z.ltb_ge ibody 0)), (proj2 (Z.leb_gt 8 ibody)) by lia. cbn [orb]. cbv zeta.
  rewrite split_file by assumption. split; intros ->; reflexivity.
Qed.
Lemma Load_hangs ibody h ls : (0 <= ibody < 8)%Z -> (forall l, In l (h :: ls) -> ~ In line_feed l) ->
  header_of (b7 ibody) h -> column 41 h = Some "1"%char -> declares h 0 ->
  forall fuel, LoadPlanetPath pf fuel ibody (Some (file_of (h :: ls))) = None.
Proof.
  intros Hb LF H C D fuel. apply (proj1 (Load_lines ibody (h :: ls) fuel Hb ltac:(discriminate) LF)).
  induction fuel as [|fuel IH]; [reflexivity|]. cbn [parse].
  rewrite (step_header pf "1"%char ibody (h :: ls) 0 coeff0 h 0 eq_refl (conj H C) D). cbn [Z.eqb]. exact IH.
Qed.
Lemma Load_short_file ibody h ls : (0 <= ibody < 8)%Z -> (forall l, In l (h :: ls) -> ~ In line_feed l) ->
  header_of (b7 ibody) h -> column 41 h = Some "1"%char -> declares h (Z.of_nat (length ls) + 1) ->
  forall fuel, LoadPlanetPath pf (S fuel) ibody (Some (file_of (h :: ls))) = Some LPanic.
Proof.
  intros Hb LF H C D fuel. apply (proj2 (Load_lines ibody (h :: ls) (S fuel) Hb ltac:(discriminate) LF)). cbn [parse].
  rewrite (step_header pf "1"%char ibody (h :: ls) 0 coeff0 h _ eq_refl (conj H C) D). cbn [length].
  rewrite (proj2 (Z.eqb_neq _ 0)) by lia. rewrite (proj2 (Z.ltb_ge _ _)) by lia. rewrite (proj2 (Z.ltb_ge _ 0)) by lia.
  rewrite (proj2 (Z.ltb_lt (Z.of_nat (S (length ls))) _)) by lia. reflexivity.
Qed.
Lemma Load_short_line ibody h d ls v : (0 <= ibody < 8)%Z -> (forall l, In l (h :: d :: ls) -> ~ In line_feed l) ->
  header_of (b7 ibody) h -> column 41 h = Some "1"%char -> declares h v -> (1 <= v <= 1 + Z.of_nat (length ls))%Z -> (length d < 97)%nat ->
  forall fuel, LoadPlanetPath pf (S fuel) ibody (Some (file_of (h :: d :: ls))) = Some LPanic.
Proof.
  intros Hb LF H C D V Ld fuel. apply (proj2 (Load_lines ibody (h :: d :: ls) (S fuel) Hb ltac:(discriminate) LF)). cbn [parse].
  rewrite (step_header pf "1"%char ibody (h :: d :: ls) 0 coeff0 h _ eq_refl (conj H C) D). cbn [length skipn].
  rewrite (proj2 (Z.eqb_neq _ 0)) by lia. rewrite (proj2 (Z.ltb_ge _ v)) by lia. rewrite (proj2 (Z.ltb_ge _ 0)) by lia.
  rewrite (proj2 (Z.ltb_ge (Z.of_nat (S (S (length ls)))) _)) by lia. cbn [orb]. destruct (Z.to_nat v) as [|k] eqn:E; [lia|]. cbn [firstn data].
  change (Nat.leb 2047 0) with false. unfold slice. rewrite (proj2 (Nat.leb_gt 97 _)) by lia. reflexivity.
Qed.
Lemma data_many ls (ts : list (F * F * F)) cx : Forall2 (data_line pf) ls ts -> (cx <= 2047)%nat -> (2047 < cx + length ts)%nat -> data pf cx ls = DPanic.
Proof.
  intros H. revert cx. induction H as [|l [[a b] c] ls ts D H IH]; intros cx Hc Ht; [cbn in Ht; lia|].
  cbn [length] in Ht. cbn [data]. destruct (Nat.leb_spec 2047 cx) as [|L]; [reflexivity|].
  destruct D as (L' & (ta & Na & Pa & Ea) & Eb & (tc & Nc & Pc & Ec)).
  rewrite !slice_columns by lia. rewrite (Trim_padded ta _ Na Pa), Ea, Eb, (Trim_padded tc _ Nc Pc), Ec.
  rewrite IH by lia. reflexivity.
Qed.
Lemma Load_many ibody h ls (ts : list (F * F * F)) rest : (0 <= ibody < 8)%Z -> (forall l, In l (h :: ls ++ rest) -> ~ In line_feed l) ->
  header_of (b7 ibody) h -> column 41 h = Some "1"%char -> declares h (Z.of_nat (length ts)) -> Forall2 (data_line pf) ls ts -> (2047 < length ts)%nat ->
  forall fuel, LoadPlanetPath pf (S fuel) ibody (Some (file_of (h :: ls ++ rest))) = Some LPanic.
Proof.
  intros Hb LF H C D DL V fuel. pose proof (Forall2_len _ _ _ DL) as LL. apply (proj2 (Load_lines ibody (h :: ls ++ rest) (S fuel) Hb ltac:(discriminate) LF)). cbn [parse].
  rewrite (step_header pf "1"%char ibody (h :: ls ++ rest) 0 coeff0 h _ eq_refl (conj H C) D). cbn [length skipn]. rewrite app_length.
  rewrite (proj2 (Z.eqb_neq _ 0)) by lia. rewrite (proj2 (Z.ltb_ge _ (Z.of_nat (length ts)))) by lia. rewrite (proj2 (Z.ltb_ge _ 0)) by lia.
  rewrite (proj2 (Z.ltb_ge (Z.of_nat (S (length ls + length rest))) _)) by lia. cbn [orb]. rewrite Nat2Z.id, <- LL, firstn_app_exact.
  rewrite (data_many ls ts 0 DL) by lia. reflexivity.
Qed.
Lemma Load_power ibody h ls (ts : list (F * F * F)) rest p : (0 <= ibody < 8)%Z -> (forall l, In l (h :: ls ++ rest) -> ~ In line_feed l) ->
  header_of (b7 ibody) h -> column 41 h = Some "1"%char -> declares h (Z.of_nat (length ts)) -> Forall2 (data_line pf) ls ts -> (1 <= length ts <= 2047)%nat ->
  (6 <= p <= 9)%nat -> column 59 h = Some (ascii_of_nat (48 + p)) ->
  forall fuel, LoadPlanetPath pf (S fuel) ibody (Some (file_of (h :: ls ++ rest))) = Some LPanic.
Proof.
  intros Hb LF H C D DL V P C59 fuel. pose proof (Forall2_len _ _ _ DL) as LL. apply (proj2 (Load_lines ibody (h :: ls ++ rest) (S fuel) Hb ltac:(discriminate) LF)). cbn [parse].
  rewrite (step_header pf "1"%char ibody (h :: ls ++ rest) 0 coeff0 h _ eq_refl (conj H C) D). cbn [length skipn]. rewrite app_length.
  rewrite (proj2 (Z.eqb_neq _ 0)) by lia. rewrite (proj2 (Z.ltb_ge _ (Z.of_nat (length ts)))) by lia. rewrite (proj2 (Z.ltb_ge _ 0)) by lia.
  rewrite (proj2 (Z.ltb_ge (Z.of_nat (S (length ls + length rest))) _)) by lia. cbn [orb]. rewrite Nat2Z.id, <- LL, firstn_app_exact.
  rewrite (data_terms pf ls ts 0 DL) by lia. rewrite (column_nth _ _ _ C59), power_index by lia. rewrite (proj2 (Nat.leb_le 6 p)) by lia. reflexivity.
Qed.
End Safety.

(** ** Example *)
From Coq Require Import String.
Definition t_ (s : string) : text := list_ascii_of_string s.
Definition ex_h1 : text := t_ " VSOP87 VERSION B2    EARTH     VARIABLE 1 (LBR)       *T**0      1 TERMS    HELIOCENTRIC DYNAMICAL ECLIPTIC AND EQUINOX J2000      ".
Definition ex_h3 : text := t_ " VSOP87 VERSION B2    EARTH     VARIABLE 3 (LBR)       *T**2      1 TERMS                                                           ".
Definition ex_d : text := t_ " 4310    1  0  0  0  0  0  0  0  0  0  0  0  0                                      1.75347045673 0.00000000000       0.00000000000 ".
Definition ex_term : text * text * text := (t_ "1.75347045673", t_ "0.00000000000", t_ "0.00000000000").
Definition ex_s1 : series := mkseries 0 ex_h1 [ex_d] [ex_term].
Definition ex_s3 : series := mkseries 2 ex_h3 [ex_d] [ex_term].
Lemma ex_data : data_line (@Some text) ex_d ex_term.
Proof.
  split; [vm_compute; lia|]. split; [|split].
  - exists (t_ "1.75347045673"). split; [|split; [exists 5%nat, 0%nat; reflexivity|reflexivity]].
    split; [discriminate|]. intros a H. cbn in H. repeat (destruct H as [<- |H]; [vm_compute; lia|]). destruct H.
  - reflexivity.
  - exists (t_ "0.00000000000"). split; [|split; [exists 7%nat, 0%nat; reflexivity|reflexivity]].
    split; [discriminate|]. intros a H. cbn in H. repeat (destruct H as [<- |H]; [vm_compute; lia|]). destruct H.
Qed.
Lemma ex_wf : well_formed (@Some text) (b7 2) "1"%char ex_s1 /\ well_formed (@Some text) (b7 2) "3"%char ex_s3.
Proof.
  assert (N : numeral ["1"%char] 1) by (apply numeral1; split; [reflexivity|lia]).
  split; (split; [split; [vm_compute; lia|split; reflexivity]|split; [reflexivity|split; [cbn; lia|split; [reflexivity|split; [cbn; lia|split; [|constructor; [apply ex_data|constructor]]]]]]]).
  - exists ["1"%char]. split; [exact N|]. exists 6%nat, 0%nat. reflexivity.
  - exists ["1"%char]. split; [exact N|]. exists 6%nat, 0%nat. reflexivity.
Qed.
Lemma ex_no_feed l : In l (lines_of [ex_s1] ++ lines_of (@nil (@series text)) ++ lines_of [ex_s3] ++ [[]]) -> ~ In line_feed l.
Proof.
  intros I J. assert (Q : forallb (fun l => negb (existsb (Ascii.eqb line_feed) l)) (lines_of [ex_s1] ++ lines_of (@nil (@series text)) ++ lines_of [ex_s3] ++ [[]]) = true) by (vm_compute; reflexivity).
  rewrite forallb_forall in Q. specialize (Q l I). apply negb_true_iff in Q. rewrite <- not_true_iff_false, existsb_exists in Q. apply Q. exists line_feed. split; [exact J|apply Ascii.eqb_refl].
Qed.
Definition ex_h0 : text := t_ " VSOP87 VERSION B2    EARTH     VARIABLE 1 (LBR)       *T**0      0 TERMS    HELIOCENTRIC DYNAMICAL ECLIPTIC AND EQUINOX J2000      ".
Lemma no_feed ls : forallb (fun l => negb (existsb (Ascii.eqb line_feed) l)) ls = true -> forall l, In l ls -> ~ In line_feed l.
Proof.
  intros Q l I J. rewrite forallb_forall in Q. specialize (Q l I). apply negb_true_iff in Q. rewrite <- not_true_iff_false, existsb_exists in Q. apply Q. exists line_feed. split; [exact J|apply Ascii.eqb_refl].
Qed.
Lemma ex_hangs : exists content, forall fuel, LoadPlanetPath (@Some text) fuel 2 (Some content) = None.
Proof.
  exists (file_of [ex_h0]). apply (Load_hangs (@Some text) 2 ex_h0 []); [lia| |split; [vm_compute; lia|split; reflexivity]|reflexivity|].
  - apply no_feed. vm_compute. reflexivity.
  - exists ["0"%char]. split; [apply numeral1; split; [reflexivity|lia]|]. exists 6%nat, 0%nat. reflexivity.
Qed.
Lemma ex_loads : exists v, LoadPlanetPath (@Some text) 3 2 (Some (file_of [ex_h1; ex_d])) = Some (LPlanet v).
Proof.
  pose (N := @nil (@series text)).
  assert (A2 : forall s, In s N -> well_formed (@Some text) (b7 2) "2"%char s) by (intros s []).
  assert (A3 : forall s, In s N -> well_formed (@Some text) (b7 2) "3"%char s) by (intros s []).
  assert (A1 : forall s, In s [ex_s1] -> well_formed (@Some text) (b7 2) "1"%char s) by (intros s [<- |[]]; apply ex_wf).
  assert (N1 : NoDup (map s_power [ex_s1])) by (constructor; [intros []|constructor]).
  assert (N2 : NoDup (map s_power N)) by constructor.
  assert (R : forall l, hd_error (@nil text) = Some l -> (List.length l < 132)%nat) by (intros l E; discriminate E).
  assert (LF : forall l, In l [ex_h1; ex_d] -> ~ In line_feed l) by (apply no_feed; vm_compute; reflexivity).
  destruct (Load_file (@Some text) 2 [ex_s1] N N [] [ex_h1; ex_d] 3 ltac:(lia) A1 A2 A3 N1 N2 N2 R eq_refl ltac:(discriminate) LF ltac:(cbn [List.length]; lia)) as (v & E & _).
  exists v. exact E.
Qed.
Lemma ex_truncated : exists content rest, (exists fuel v, LoadPlanetPath (@Some text) fuel 2 (Some (content ++ rest)) = Some (LPlanet v)) /\
  forall fuel, LoadPlanetPath (@Some text) (S fuel) 2 (Some content) = Some LPanic.
Proof.
  exists (file_of [ex_h1]), (line_feed :: ex_d). split.
  - exists 3%nat. exact ex_loads.
  - apply (Load_short_file (@Some text) 2 ex_h1 []); [lia| |split; [vm_compute; lia|split; reflexivity]|reflexivity|].
    + apply no_feed. vm_compute. reflexivity.
    + change (Z.of_nat (List.length (@nil text)) + 1)%Z with 1%Z. exists ["1"%char]. split; [apply numeral1; split; [reflexivity|lia]|]. exists 6%nat, 0%nat. reflexivity.
Qed.
