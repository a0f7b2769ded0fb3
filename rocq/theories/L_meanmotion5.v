(** Perihelion and aphelion against the mean elements; the events of planetary collected. *)
From Coq Require Import ZArith Reals List Lia Lra Bool.
From Flocq Require Import Core.
From Verif Require Import GoFloat GoMath M_base M_precess M_planetary M_planetelements S_solar S_moon S_meanmotion L_precess L_solar L_planetelements L_meanmotion L_meanmotion2 L_meanmotion4.
Import ListNotations.
Local Open Scope R_scope.

Definition pe_error : list R := [0.00557; 0.06268; 0.00062; 0.00590; 0.05264; 0.05361; 0.00694; 0.00191].
Lemma pf_k x : exists n : Z, pf x = IZR n + 0 /\ Rabs (pf x - x) <= 1 / 2.
Proof. exists (Zfloor (x + 0.5)). unfold pf, Floor. rewrite Rplus_0_r. split; [reflexivity |]. pose proof (Zfloor_lb (x + 0.5)) as L. pose proof (Zfloor_ub (x + 0.5)) as U. set (z := IZR (Zfloor _)) in *. clearbody z. decimals_in L. decimals_in U. apply Rabs_le. lra. Qed.
Lemma af_k x : exists n : Z, af x = IZR n + / 2 /\ Rabs (af x - x) <= 1 / 2.
Proof. exists (Zfloor x). unfold af, Floor. pose proof (Zfloor_lb x) as L. pose proof (Zfloor_ub x) as U. set (z := IZR (Zfloor _)) in *. clearbody z. split; [decimals; lra |]. decimals. apply Rabs_le. lra. Qed.
Lemma k_scaled k a y b c : Rabs (y - 2000) <= 2000 -> Rabs (k - a * (y - b)) <= 1 / 2 -> 0 < a -> 0 < c -> 2000 <= b <= 2052 -> a * c / 36525 <= 0.010003 -> c / 36525 <= 1.65 -> Rabs (k * c / 36525) <= 22.
Proof.
  intros H K A C B P Q. decimals_in P. decimals_in Q. apply Rabs_le_inv in H. apply Rabs_le_inv in K.
  replace (k * c / 36525) with ((k - a * (y - b)) * (c / 36525) + (a * c / 36525) * (y - b)) by field.
  set (d := k - a * (y - b)) in *. assert (C' : 0 < c / 36525) by lra. assert (P0 : 0 < a * c / 36525) by nra.
  set (u := c / 36525) in *. set (v := a * c / 36525) in *. clearbody d u v. set (w := y - b). assert (W : -2052 <= w <= 2000) by (unfold w; lra). clearbody w. clear - C' P0 P Q K W. apply Rabs_le. nra.
Qed.
Lemma EMBary_value y f a : pe_ap EMBary y a f = pe_mean EMBary (pe_k EMBary y f).
Proof. unfold pe_ap. cbv zeta. lra. Qed.
Definition other (p : M_planetary.planet) : Prop := p <> M_planetary.Earth /\ p <> EMBary.
Lemma pe_value p y f a : other p -> pe_ap p y a f = pe_mean p (pe_k p y f).
Proof. intros [H _]. unfold pe_ap. cbv zeta. destruct p; try (now destruct (H eq_refl)); lra. Qed.
Lemma Mean_total p jde : (0 <= p < 8)%Z -> p <> M_planetelements.Earth -> exists e, Mean p jde = Some e.
Proof. intros H N. destruct (Mean p jde) as [e |] eqn:E; [now exists e |]. apply Mean_panics in E. destruct E as [E | E]; contradiction. Qed.
Lemma pe_at p y f q (n : Z) : other p -> Rabs (y - 2000) <= 2000 -> (let '(a, b) := nth (pidx p) pe_ka (0, 0) in f (a * (y - b)) = IZR n + q /\ Rabs (f (a * (y - b)) - a * (y - b)) <= 1 / 2) ->
  forall e, Mean (Z.of_nat (pidx p)) (pe_mean p (pe_k p y f)) = Some e -> near_turns (eLon e - ePeri e - degrees (360 * q)) (degrees (nth (pidx p) pe_error 0)).
Proof.
  intros O H K e He. unfold pe_k in He. revert K He. destruct p; cbn [pidx nth pe_ka pe_error Z.of_nat]; intros (Ek & Kb) He; try (exfalso; destruct O as [O1 O2]; first [now apply O1 | now apply O2]).
  - refine (peMercury_event _ q n Ek _ e He). eapply k_scaled; [exact H | exact Kb | decimals; lra ..].
  - refine (peVenus_event _ q n Ek _ e He). eapply k_scaled; [exact H | exact Kb | decimals; lra ..].
  - refine (peMars_event _ q n Ek _ e He). eapply k_scaled; [exact H | exact Kb | decimals; lra ..].
  - refine (peJupiter_event _ q n Ek _ e He). eapply k_scaled; [exact H | exact Kb | decimals; lra ..].
  - refine (peSaturn_event _ q n Ek _ e He). eapply k_scaled; [exact H | exact Kb | decimals; lra ..].
  - refine (peUranus_event _ q n Ek _ e He). eapply k_scaled; [exact H | exact Kb | decimals; lra ..].
  - refine (peNeptune_event _ q n Ek _ e He). eapply k_scaled; [exact H | exact Kb | decimals; lra ..].
Qed.
Lemma perihelia p y : other p -> Rabs (y - 2000) <= 2000 -> let err := degrees (nth (pidx p) [0.00557; 0.06268; 0.00062; 0.00590; 0.05264; 0.05361; 0.00694; 0.00191] 0) in
  (exists e, Mean (Z.of_nat (pidx p)) (Perihelion p y) = Some e /\ near_turns (eLon e - ePeri e) err) /\
  (exists e, Mean (Z.of_nat (pidx p)) (Aphelion p y) = Some e /\ near_turns (eLon e - ePeri e - PI) err).
Proof.
  intros O H err. assert (B : (0 <= Z.of_nat (pidx p) < 8)%Z /\ Z.of_nat (pidx p) <> M_planetelements.Earth).
  { destruct p; cbn; split; try lia; try discriminate; exfalso; destruct O as [O1 O2]; first [now apply O1 | now apply O2]. }
  unfold Perihelion, Aphelion. rewrite !pe_value by exact O. split.
  - destruct (Mean_total _ (pe_mean p (pe_k p y pf)) (proj1 B) (proj2 B)) as (e & He). exists e. split; [exact He |].
    destruct (nth (pidx p) pe_ka (0, 0)) as [a b] eqn:En. destruct (pf_k (a * (y - b))) as (n & E1 & E2).
    replace (eLon e - ePeri e) with (eLon e - ePeri e - degrees (360 * 0)) by (unfold degrees; ring). apply (pe_at p y pf 0 n O H); [rewrite En; now split | exact He].
  - destruct (Mean_total _ (pe_mean p (pe_k p y af)) (proj1 B) (proj2 B)) as (e & He). exists e. split; [exact He |].
    destruct (nth (pidx p) pe_ka (0, 0)) as [a b] eqn:En. destruct (af_k (a * (y - b))) as (n & E1 & E2).
    replace (eLon e - ePeri e - PI) with (eLon e - ePeri e - degrees (360 * / 2)) by (unfold degrees; field). apply (pe_at p y af (/ 2) n O H); [rewrite En; now split | exact He].
Qed.
Lemma embary y : Rabs (y - 2000) <= 2000 -> near_turns (degrees (sun_anomaly (centuries (Perihelion EMBary y)))) (degrees 0.00062) /\ near_turns (degrees (sun_anomaly (centuries (Aphelion EMBary y)) - 180)) (degrees 0.00062).
Proof.
  intros H. unfold Perihelion, Aphelion. rewrite !EMBary_value. unfold pe_k. cbn [pidx nth pe_ka]. change (pe_mean EMBary) with (pe_mean M_planetary.Earth). split.
  - destruct (pf_k (0.99997 * (y - 2000.01))) as (n & E1 & E2). set (t := centuries _). replace (degrees (sun_anomaly t)) with (degrees (sun_anomaly t - 360 * 0)) by (f_equal; ring). unfold t. apply (peEarth_event _ 0 n E1). eapply k_scaled; [exact H | exact E2 | decimals; lra ..].
  - destruct (af_k (0.99997 * (y - 2000.01))) as (n & E1 & E2). set (t := centuries _). replace (degrees (sun_anomaly t - 180)) with (degrees (sun_anomaly t - 360 * / 2)) by (f_equal; field). unfold t. apply (peEarth_event _ (/ 2) n E1). eapply k_scaled; [exact H | exact E2 | decimals; lra ..].
Qed.
(** The planet and the Earth in one direction (0) or opposite ones (180) from the Sun. *)
Lemma mean_events y : Rabs (y - 2000) <= 2000 ->
  let at_event p a q err := exists e, Mean p (pl_J y a) = Some e /\ near_turns (eLon e - degrees (earth_longitude (centuries (pl_J y a)) + q)) (degrees err) /\
     near_turns (degrees (sun_anomaly (centuries (pl_J y a))) - pl_M y a) (degrees 0.0645) in
  at_event M_planetelements.Mercury micA 0 0.0075 /\ at_event M_planetelements.Mercury mscA 180 0.0067 /\ at_event M_planetelements.Venus vicA 0 0.0033 /\ at_event M_planetelements.Mars moA 0 0.0035 /\
  at_event M_planetelements.Jupiter joA 0 0.033 /\ at_event M_planetelements.Saturn soA 0 0.0892 /\ at_event M_planetelements.Saturn scA 180 0.0892 /\ at_event M_planetelements.Uranus uoA 0 0.0016 /\ at_event M_planetelements.Neptune noA 0 0.0037.
Proof.
  intros H at_event.
  assert (D : forall a b, a <= b -> degrees a <= degrees b). { intros a b L. unfold degrees. pose proof PI_RGT_0. apply Rmult_le_compat_r; lra. }
  assert (W : forall x a b, near_turns x (degrees a) -> a <= b -> near_turns x (degrees b)). { intros x a b (k & K) L. exists k. specialize (D a b L). lra. }
  assert (Z1 : forall p a q err e1 e2, (0 <= p < 8)%Z -> p <> M_planetelements.Earth -> e1 <= err -> e2 <= 0.0645 ->
    (forall e, Mean p (pl_J y a) = Some e -> near_turns (eLon e - degrees (earth_longitude (centuries (pl_J y a)) + q)) (degrees e1) /\ near_turns (degrees (sun_anomaly (centuries (pl_J y a))) - pl_M y a) (degrees e2)) -> at_event p a q err).
  { intros p a q err e1 e2 Hp Hn L1 L2 K. destruct (Mean_total p (pl_J y a) Hp Hn) as (e & He). exists e. destruct (K e He) as [K1 K2]. split; [exact He |]. split; [exact (W _ _ _ K1 L1) | exact (W _ _ _ K2 L2)]. }
  repeat split.
  - eapply Z1; [split; vm_compute; [discriminate | reflexivity] | discriminate | | | exact (mic_event y H)]; decimals; lra.
  - eapply Z1; [split; vm_compute; [discriminate | reflexivity] | discriminate | | | exact (msc_event y H)]; decimals; lra.
  - eapply Z1; [split; vm_compute; [discriminate | reflexivity] | discriminate | | | exact (vic_event y H)]; decimals; lra.
  - eapply Z1; [split; vm_compute; [discriminate | reflexivity] | discriminate | | | exact (mo_event y H)]; decimals; lra.
  - eapply Z1; [split; vm_compute; [discriminate | reflexivity] | discriminate | | | exact (jo_event y H)]; decimals; lra.
  - eapply Z1; [split; vm_compute; [discriminate | reflexivity] | discriminate | | | exact (so_event y H)]; decimals; lra.
  - eapply Z1; [split; vm_compute; [discriminate | reflexivity] | discriminate | | | exact (sc_event y H)]; decimals; lra.
  - eapply Z1; [split; vm_compute; [discriminate | reflexivity] | discriminate | | | exact (uo_event y H)]; decimals; lra.
  - eapply Z1; [split; vm_compute; [discriminate | reflexivity] | discriminate | | | exact (no_event y H)]; decimals; lra.
Qed.
