(** Properties C89, C90: the different ways the package offers to measure and to travel
    agree with each other: Vincenty's formulas with Karney's, rhumb lines, parallels and
    meridian arcs with geodesics. *)
From Coq Require Import Reals Lra Lia Psatz.
From Coquelicot Require Import Coquelicot.
From Verif Require Import PyMath M_ellipsoid M_vincenty M_karney Spec Spec_geodesic.
From Verif Require Import P_karney P_geodesic P_vincenty P_inverse P_vinacc P_converge P_distance P_shortest P_azimuth.
From Verif Require L_PyMath L_aer L_ell L_karney2 L_series2 L_vincenty L_geodesic3 L_geodesic4 L_short3 L_short7 L_short8 L_short9.
Open Scope R_scope.

(** ** C89: vreckon and geodesic_direct, vdist and geodesic_inverse *)
Lemma clear_off deg lat : P_karney.off_pole deg lat -> clear_of_poles deg lat.
Proof.
  intros [A B]. unfold clear_of_poles. unfold lat_ok in A. assert (R0 : - (PI / 2) <= as_rad deg lat <= PI / 2).
  { destruct deg; cbn [quarter as_rad] in *; [|lra]. pose proof PI_RGT_0. assert (lat * PI <= 90 * PI) by (apply Rmult_le_compat_r; lra). assert (- 90 * PI <= lat * PI) by (apply Rmult_le_compat_r; lra). lra. }
  set (x := as_rad deg lat) in *. assert (C : cos x = sin (PI / 2 - Rabs x)). { rewrite sin_shift. unfold Rabs. destruct (Rcase_abs x); [now rewrite cos_neg|reflexivity]. }
  assert (X : 0 <= PI / 2 - Rabs x) by (assert (Rabs x <= PI / 2) by (apply Rabs_le; lra); lra). assert (Y : sin (PI / 2 - Rabs x) <= PI / 2 - Rabs x) by (destruct (Req_dec (PI / 2 - Rabs x) 0) as [->|N]; [rewrite sin_0; lra|left; apply sin_lt_x; lra]).
  assert (1 / 10 ^ 10 <= / 2 ^ 26) by (clear; simpl; lra). lra.
Qed.
(** The positions reached by the two direct solvers. *)
Theorem C89_direct_agree : forall fuel deg ell lat1 lon1 az s lat2 lon2 lat2' lon2' az2', round_enough ell -> P_karney.off_pole deg lat1 ->
  vreckon fuel lat1 lon1 s az ell deg = Some (Ok (Some (lat2, lon2))) ->
  geodesic_direct lat1 lon1 az s ell deg = (lat2', lon2', az2') -> P_karney.off_pole deg lat2' ->
  vdist3 (place deg ell lat2 lon2) (place deg ell lat2' lon2')
    <= ell_a ell * (103 / 100 / 10 ^ 12 + flat ell ^ 4 / 5 * (s / ell_b ell + 1) + third ell ^ 7 * (300 + 80 * (Rabs s / ell_b ell))).
Proof.
  intros fuel deg ell lat1 lon1 az s lat2 lon2 lat2' lon2' az2' H P1 V D P2. destruct (C70_geodesic_exists deg ell lat1 lon1 az (proj1 H)) as (c & t & LV).
  pose proof (C75_vreckon_accuracy fuel deg ell lat1 lon1 s az c t lat2 lon2 H (clear_off _ _ P1) LV V) as A. destruct (C70_direct_accuracy deg ell lat1 lon1 az s c t lat2' lon2' az2' H P1 LV D P2) as [B _]. cbv zeta in B.
  fold (place deg ell lat2 lon2) in A. fold (place deg ell lat2' lon2') in B. eapply Rle_trans; [apply (L_geodesic4.vdist3_triangle _ (c s))|]. rewrite (L_aer.vdist3_sym (c s)). lra.
Qed.
Theorem C89_direct_agree_earth : forall fuel deg lat1 lon1 az s lat2 lon2 lat2' lon2' az2', P_karney.off_pole deg lat1 -> s <= 20010000 ->
  vreckon fuel lat1 lon1 s az None deg = Some (Ok (Some (lat2, lon2))) ->
  geodesic_direct lat1 lon1 az s None deg = (lat2', lon2', az2') -> P_karney.off_pole deg lat2' ->
  vdist3 (place deg None lat2 lon2) (place deg None lat2' lon2') <= 2 / 1000.
Proof.
  intros fuel deg lat1 lon1 az s lat2 lon2 lat2' lon2' az2' P1 S V D P2. destruct (C70_geodesic_exists deg None lat1 lon1 az (proj1 wgs84_round)) as (c & t & LV).
  pose proof (C75_vreckon_accuracy_earth fuel deg lat1 lon1 s az c t lat2 lon2 (clear_off _ _ P1) S LV V) as A. destruct (C70_direct_accuracy deg None lat1 lon1 az s c t lat2' lon2' az2' wgs84_round P1 LV D P2) as [B _]. cbv zeta in B.
  fold (place deg None lat2 lon2) in A. fold (place deg None lat2' lon2') in B. assert (S0 : 0 <= s). { apply Rnot_lt_le. intros N. rewrite L_vincenty4.vreckon_neg in V by exact N. discriminate. }
  assert (Q : ell_a None * (third None ^ 7 * (300 + 80 * (Rabs s / ell_b None))) <= / 1000).
  { assert (SB : 0 <= Rabs s / ell_b None <= 4). { rewrite Rabs_right by lra. cbn [ell_b]. lra. }
    pose proof wgs84_third as [T0 T1]. assert (T7 : 0 <= third None ^ 7 <= (16793 / 10000000) ^ 7) by (split; [now apply pow_le|apply pow_incr; split; assumption]).
    apply Rle_trans with (ell_a None * ((16793 / 10000000) ^ 7 * (300 + 80 * 4))); [apply Rmult_le_compat_l; [cbn [ell_a]; lra|apply Rmult_le_compat; lra]|]. cbn [ell_a]. clear. simpl. lra. }
  eapply Rle_trans; [apply (L_geodesic4.vdist3_triangle _ (c s))|]. rewrite (L_aer.vdist3_sym (c s)). lra.
Qed.
(** A geodesic that ends near the second point and is at most 3.15 a long is shorter
    than 2.7 a. *)
Lemma near_range deg ell lat1 lon1 lat2 lon2 s az err c t : round_enough ell -> P_karney.off_pole deg lat1 -> P_karney.off_pole deg lat2 ->
  unit_angle (dir deg lat1 lon1) (dir deg lat2 lon2) + 4 * flat ell <= 267 / 100 -> 0 <= s <= 315 / 100 * ell_a ell -> err <= / 2000 ->
  leaves deg ell lat1 lon1 az c t -> vdist3 (place deg ell lat2 lon2) (c s) <= ell_a ell * err -> 0 <= s <= 27 / 10 * ell_a ell.
Proof.
  intros H P1 P2 AN S B (G & G0 & _) A. fold (place deg ell lat1 lon1) in G0.
  split; [lra|]. apply Rnot_lt_le; intros X. destruct (flat_range ell H) as (F & Eb & Pa & _). pose proof (cos_off _ _ P1) as C1. pose proof (cos_off _ _ P2) as C2.
  pose proof (place_on deg ell lat1 lon1 H) as O1. pose proof (place_on deg ell lat2 lon2 H) as O2. assert (OE : on_ellipsoid (ell_a ell) (ell_b ell) (c s)) by apply (G s).
  pose proof (unit_nrm ell _ H O1) as U1. pose proof (unit_nrm ell _ H O2) as U2. pose proof (unit_nrm ell _ H OE) as UE. unfold place in U1, U2, O1, O2, G0, A. rewrite Eb in *.
  pose proof (L_short7.far_end (ell_a ell) (flat ell) Pa F c t s G ltac:(lra)) as FE. rewrite G0 in FE.
  pose proof (L_short7.nrm_sep (ell_a ell) (flat ell) Pa F _ (as_rad deg lon1) _ (as_rad deg lon2) C1 C2) as NS. change (unit_normal (as_rad deg lat1) (as_rad deg lon1)) with (dir deg lat1 lon1) in NS. change (unit_normal (as_rad deg lat2) (as_rad deg lon2)) with (dir deg lat2 lon2) in NS.
  pose proof (L_short7.ang_near (ell_a ell) (flat ell) Pa F _ _ O2 OE) as NR. pose proof (L_vin3.angle_triangle _ _ _ U1 U2 UE) as TR.
  assert (D : vdist3 (surface_point (ell_a ell) (ell_a ell * (1 - flat ell)) (as_rad deg lat2) (as_rad deg lon2)) (c s) / ell_a ell <= err).
  { apply Rmult_le_reg_r with (ell_a ell); [lra|]. unfold Rdiv. rewrite Rmult_assoc, Rinv_l by lra. lra. }
  lra.
Qed.
(** The distances and the azimuths given by the two inverse solvers. *)
Theorem C89_inverse_agree : forall T deg ell lat1 lon1 lat2 lon2 d az s az1 az2, round_enough ell -> bound_ok T ell -> well_apart T deg ell lat1 lon1 lat2 lon2 ->
  vdist lat1 lon1 lat2 lon2 ell deg = Ok (d, az) -> geodesic_inverse lat1 lon1 lat2 lon2 ell deg = (s, az1, az2) ->
  let err := (300 * third ell ^ 7 + 8 / 2 ^ 52) + (2 / 10 ^ 12 + 3 / 5 * flat ell ^ 4) in
  0 <= d <= 27 / 10 * ell_a ell /\ Rabs (d - s) <= 27 / 10 * (ell_a ell * err) /\ sin (d / ell_a ell) * azimuth_gap deg az az1 <= 240 * err.
Proof.
  intros T deg ell lat1 lon1 lat2 lon2 d az s az1 az2 H B W V E err. pose proof W as (P1 & P2 & NZ & AN & GP). pose proof B as [B1 B2]. pose proof pi_314 as PG. destruct (flat_range ell H) as (F & Eb & Pa & Pb).
  set (e1 := 300 * third ell ^ 7 + 8 / 2 ^ 52) in *. set (e2 := 2 / 10 ^ 12 + 3 / 5 * flat ell ^ 4) in *. pose proof (err_small ell H) as [Z0 Z1]. fold e1 in Z0, Z1.
  assert (Y : 0 <= e2 <= / 2000). { assert (F4 : 0 <= flat ell ^ 4 <= (1 / 100) ^ 4) by (split; [apply pow_le; lra|apply pow_incr; lra]). unfold e2. clear - F4. split; [apply Rplus_le_le_0_compat; [simpl; lra|lra]|]. apply Rle_trans with (2 / 10 ^ 12 + 3 / 5 * (1 / 100) ^ 4); [lra|simpl; lra]. }
  destruct (C70_geodesic_exists deg ell lat1 lon1 az (proj1 H)) as (c & t & LV).
  destruct (C76_vdist_accuracy deg ell lat1 lon1 lat2 lon2 d az c t H (clear_off _ _ P1) (clear_off _ _ P2) ltac:(lra) V LV) as [A DL]. fold (place deg ell lat2 lon2) in A. fold e2 in A.
  assert (D0 : 0 <= d). { apply (C43_distance_nonnegative lat1 lon1 lat2 lon2 ell deg d az); [|exact V]. split; [apply H|]. rewrite Eb, Rpow_mult_distr. assert (1 / 2 <= (1 - flat ell) ^ 2) by nra. pose proof (pow2_ge_0 (ell_a ell)). nra. }
  pose proof (near_range deg ell lat1 lon1 lat2 lon2 d az e2 c t H P1 P2 ltac:(lra) ltac:(lra) ltac:(lra) LV A) as D.
  assert (J : joins deg ell lat1 lon1 lat2 lon2 s az1 az2 e1) by (apply (C71_inverse_accuracy_away T); try assumption; lra).
  destruct (C70_geodesic_exists deg ell lat1 lon1 az1 (proj1 H)) as (c' & t' & LV').
  pose proof (within_range deg ell lat1 lon1 lat2 lon2 s az1 az2 e1 c' t' H P1 P2 ltac:(lra) (length_bound _ _ _ _ _ _ _ _ _ H P1 P2 E) Z1 LV' J) as S. destruct (J c' t' LV') as [J1 _]. fold (place deg ell lat2 lon2) in J1.
  assert (Q1 : 0 <= ell_a ell * e1) by (apply Rmult_le_pos; lra). assert (Q2 : 0 <= ell_a ell * e2) by (apply Rmult_le_pos; lra). assert (QE : ell_a ell * err = ell_a ell * e1 + ell_a ell * e2) by (unfold err; ring).
  split; [exact D|]. split.
  - pose proof LV as (G & G0 & _). fold (place deg ell lat1 lon1) in G0. pose proof (place_on deg ell lat2 lon2 H) as O2. rewrite QE. apply Rabs_le. split.
    + assert (WK : exists d' L, surface_walk ell d' L (place deg ell lat1 lon1) (place deg ell lat2 lon2) /\ L <= d + 204 / 100 * vdist3 (place deg ell lat2 lon2) (c d)).
      { rewrite Eb in O2, G. destruct (L_short7.geo_walk_near (ell_a ell) (flat ell) Pa F c t d _ G D0 O2) as (d' & L & K1 & K2); [apply Rle_trans with (1 := A); nra|]. exists d', L. split; [apply walk_is; [exact H|]; rewrite <- G0; exact K1|exact K2]. }
      destruct WK as (d' & L & K1 & K2). pose proof (C85_shortest T deg ell _ _ _ _ _ _ _ H B W E d' L K1) as K. fold e1 in K. lra.
    + destruct (C85_attained T deg ell _ _ _ _ _ _ _ H B W E) as (d' & L & K1 & K2). fold e1 in K2. apply walk_is in K1; [|exact H]. rewrite Eb in O2, G. rewrite <- G0 in K1.
      pose proof (L_short7.no_shorter_near (ell_a ell) (flat ell) Pa F c t d d' L _ G D O2 K1) as K. lra.
  - destruct (Req_dec d 0) as [->|N]; [unfold Rdiv; rewrite Rmult_0_l, sin_0, Rmult_0_l; unfold err; lra|].
    apply (azimuths_close deg ell lat1 lon1 az d c t az1 s c' t' err H LV LV'); [lra|exact S|]. eapply Rle_trans; [apply (L_geodesic4.vdist3_triangle _ (place deg ell lat2 lon2))|]. rewrite (L_aer.vdist3_sym (c d)), QE. lra.
Qed.
Theorem C89_inverse_agree_earth : forall deg lat1 lon1 lat2 lon2 d az s az1 az2, well_apart (267 / 100) deg None lat1 lon1 lat2 lon2 ->
  vdist lat1 lon1 lat2 lon2 None deg = Ok (d, az) -> geodesic_inverse lat1 lon1 lat2 lon2 None deg = (s, az1, az2) ->
  Rabs (d - s) <= 2 / 1000 /\ d * azimuth_gap deg az az1 <= 1.
Proof.
  intros deg lat1 lon1 lat2 lon2 d az s az1 az2 W V E. destruct (C89_inverse_agree _ deg None lat1 lon1 lat2 lon2 d az s az1 az2 wgs84_round earth_bound W V E) as (D & Q1 & Q2). cbv zeta in Q1, Q2.
  assert (EE : (300 * third None ^ 7 + 8 / 2 ^ 52) + (2 / 10 ^ 12 + 3 / 5 * flat None ^ 4) <= 79 / 10 ^ 12).
  { pose proof wgs84_third as T. pose proof wgs84_flat as F. assert (T7 : third None ^ 7 <= (16793 / 10000000) ^ 7) by (apply pow_incr; exact T). assert (F4 : flat None ^ 4 <= (336 / 100000) ^ 4) by (apply pow_incr; exact F).
    apply Rle_trans with ((300 * (16793 / 10000000) ^ 7 + 8 / 2 ^ 52) + (2 / 10 ^ 12 + 3 / 5 * (336 / 100000) ^ 4)); [lra|clear; simpl; lra]. }
  set (err := (300 * third None ^ 7 + 8 / 2 ^ 52) + (2 / 10 ^ 12 + 3 / 5 * flat None ^ 4)) in *. clearbody err. cbn [ell_a] in Q1, Q2.
  split; [eapply Rle_trans; [exact Q1|]; clear - EE; simpl in *; lra|]. cbn [ell_a] in D.
  pose proof (sin_above (d / 6378137) ltac:(lra)) as SA. pose proof (gap_range deg az az1) as [R1 _]. set (g := azimuth_gap deg az az1) in *. clearbody g.
  assert (K1 : 15 / 100 * (d / 6378137) * g <= sin (d / 6378137) * g) by (apply Rmult_le_compat_r; lra). set (w := sin (d / 6378137)) in *. clearbody w.
  replace (15 / 100 * (d / 6378137) * g) with (15 / 100 / 6378137 * (d * g)) in K1 by field. set (p := d * g) in *. clearbody p. clear - K1 Q2 EE. simpl in *. lra.
Qed.
(** The hypotheses are met. *)
Example C89_example_inverse : well_apart (267 / 100) true None 45 10 (-45) 100 /\ exists d az, vdist 45 10 (-45) 100 None true = Ok (d, az).
Proof.
  split; [apply C86_example_pair|]. destruct (C43_latitude_guard 45 10 (-45) 100 None true) as [V _]. apply V. unfold lat_ok. cbn [quarter]. lra.
Qed.
Example C89_example_direct : P_karney.off_pole true 30 /\ exists lat2 lon2 lat2' lon2' az2', vreckon 71 30 20 1000000 45 None true = Some (Ok (Some (lat2, lon2))) /\
  geodesic_direct 30 20 45 1000000 None true = (lat2', lon2', az2').
Proof.
  split; [apply C70_example|]. destruct C75_example as (_ & lat2 & lon2 & _ & _ & _ & V). destruct (geodesic_direct 30 20 45 1000000 None true) as [[x y] z] eqn:E. exists lat2, lon2, x, y, z. split; [exact V|reflexivity].
Qed.
