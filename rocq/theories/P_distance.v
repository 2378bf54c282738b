(** Properties C82, C83: the range of the distance returned by geodesic_inverse;
    geodesic_direct undoes geodesic_inverse. *)
From Coq Require Import Reals Lra Lia Psatz List.
From Verif Require Import PyMath M_ellipsoid M_karney Spec Spec_geodesic.
From Verif Require Import P_karney P_geodesic P_vincenty P_inverse P_vinacc P_converge.
From Verif Require L_PyMath L_ell L_aer L_karney L_karney2 L_karney5 L_karney6 L_geodesic4 L_geodesic11 L_dist1.
Open Scope R_scope.

(** ** C82 *)
(** Any two points off the poles, antipodal ones included: the distance is between 0
    and half the equator (up to 10 n^7 of it), whatever the iteration did. *)
Theorem C82_distance_range : forall deg ell lat1 lon1 lat2 lon2 s az1 az2, round_enough ell -> off_pole deg lat1 -> off_pole deg lat2 ->
  geodesic_inverse lat1 lon1 lat2 lon2 ell deg = (s, az1, az2) -> 0 <= s <= PI * ell_a ell * (1 + 10 * third ell ^ 7).
Proof.
  intros deg ell lat1 lon1 lat2 lon2 s az1 az2 H P1 P2 E. destruct (round_geodesic ell H) as (O & Ea & Eb & Hf & En & _).
  destruct (open_lat _ _ P1) as [Q1 T1]. destruct (open_lat _ _ P2) as [Q2 T2]. rewrite inverse_open in E. rewrite <- Ea, <- En. set (g := get_geodesic ell) in *.
  set (x1 := to_deg deg lat1) in *. set (x2 := to_deg deg lat2) in *.
  assert (ES : s = L_karney6.idist (Inverse g x1 (to_deg deg lon1) x2 (to_deg deg lon2))) by (destruct (Inverse _ _ _ _ _) as [[s' x] y]; injection E as <- _ _; reflexivity). clear E.
  rewrite ES, L_karney6.Inverse_eq by lra. cbv zeta. set (d := AngNormalize _).
  assert (HD : 0 <= Rabs d <= 180) by (pose proof (L_karney.AngNormalize_range (to_deg deg lon2 - to_deg deg lon1)) as Q; fold d in Q; unfold Rabs; destruct (Rcase_abs d); lra).
  assert (AL : forall u w, Rabs (u * L_karney6.lneg w) = Rabs u).
  { intros u w. rewrite Rabs_mult. replace (Rabs (L_karney6.lneg w)) with 1; [ring|]. destruct (L_karney6.lneg_cases w) as [-> | ->]; [now rewrite Rabs_R1|]. replace (-1) with (-(1)) by lra. now rewrite Rabs_Ropp, Rabs_R1. }
  assert (AT : forall u, k_tiny <= cos (radians u) -> k_tiny <= cos (radians (u * L_karney6.lneg u))).
  { intros u K. destruct (L_karney6.lneg_cases u) as [-> | ->]; [now rewrite Rmult_1_r|]. replace (radians (u * -1)) with (- radians u) by (unfold radians; field). now rewrite cos_neg. }
  assert (A1 : Rabs x1 < 90) by (apply Rabs_def1; lra). assert (A2 : Rabs x2 < 90) by (apply Rabs_def1; lra).
  pose proof (Rabs_pos x1). pose proof (Rabs_pos x2).
  destruct (Rlt_dec (Rabs x1) (Rabs x2)) as [S|S]; rewrite L_karney6.out_dist.
  - apply L_dist1.canon_length; [exact O|exact Hf|rewrite L_karney6.lneg_abs; lra|rewrite AL, L_karney6.lneg_abs; lra|now apply AT].
  - destruct (Req_dec (Rabs x1) 0) as [Z|Z].
    + assert (Z1 : x1 = 0) by (destruct (Req_dec x1 0) as [|N]; [assumption|apply Rabs_pos_lt in N; lra]). assert (Z2 : x2 = 0) by (destruct (Req_dec x2 0) as [|N]; [assumption|apply Rabs_pos_lt in N; lra]).
      rewrite Z1, Z2, !Rmult_0_l. now apply L_dist1.canon_length_equator.
    + apply L_dist1.canon_length; [exact O|exact Hf|rewrite L_karney6.lneg_abs; lra|rewrite AL, L_karney6.lneg_abs; lra|now apply AT].
Qed.
Lemma third_pos ell : round_enough ell -> 0 <= third ell.
Proof. intros [Ho _]. destruct (L_ell.ell_pos ell Ho) as [Pb Pa]. unfold third. apply Rmult_le_pos; [lra|left; apply Rinv_0_lt_compat; lra]. Qed.
(** The distance is no less than the straight line between the points, up to the error
    of C71. *)
Theorem C82_at_least_straight_line : forall deg ell lat1 lon1 lat2 lon2 s az1 az2 err, round_enough ell -> 0 <= s ->
  joins deg ell lat1 lon1 lat2 lon2 s az1 az2 err ->
  vdist3 (surface_point (ell_a ell) (ell_b ell) (as_rad deg lat1) (as_rad deg lon1)) (surface_point (ell_a ell) (ell_b ell) (as_rad deg lat2) (as_rad deg lon2)) <= s + ell_a ell * err.
Proof.
  intros deg ell lat1 lon1 lat2 lon2 s az1 az2 err H S J. destruct (C70_geodesic_exists deg ell lat1 lon1 az1 (proj1 H)) as (c & t & L). destruct (J c t L) as [A _]. destruct L as (G & G0 & _).
  pose proof (L_geodesic4.pos_lip _ _ c t G 0 s) as P. rewrite G0 in P. rewrite Rminus_0_l, Rabs_Ropp, (Rabs_right s) in P by lra.
  eapply Rle_trans; [apply (L_geodesic4.vdist3_triangle _ (c s))|]. rewrite (L_aer.vdist3_sym (c s)). lra.
Qed.
Theorem C82_at_least_straight_line_earth : forall deg lat1 lon1 lat2 lon2 s az1 az2, off_pole deg lat1 -> off_pole deg lat2 -> (lat1 <> 0 \/ lat2 <> 0) ->
  unit_angle (dir deg lat1 lon1) (dir deg lat2 lon2) <= 265 / 100 -> meridian_gap deg lon1 lon2 <= 265 / 100 ->
  geodesic_inverse lat1 lon1 lat2 lon2 None deg = (s, az1, az2) ->
  vdist3 (surface_point (ell_a None) (ell_b None) (as_rad deg lat1) (as_rad deg lon1)) (surface_point (ell_a None) (ell_b None) (as_rad deg lat2) (as_rad deg lon2)) <= s + 2 / 10 ^ 8.
Proof.
  intros deg lat1 lon1 lat2 lon2 s az1 az2 P1 P2 NZ A G E. destruct (C82_distance_range deg None lat1 lon1 lat2 lon2 s az1 az2 wgs84_round P1 P2 E) as [S _].
  pose proof (C82_at_least_straight_line deg None lat1 lon1 lat2 lon2 s az1 az2 _ wgs84_round S (C71_inverse_accuracy_earth deg lat1 lon1 lat2 lon2 s az1 az2 P1 P2 NZ A G E)) as Q.
  eapply Rle_trans; [exact Q|]. apply Rplus_le_compat_l. cbn [ell_a]. simpl. lra.
Qed.
(** Distances on the Earth: at most 20 038 km. *)
Theorem C82_distance_range_earth : forall deg lat1 lon1 lat2 lon2 s az1 az2, off_pole deg lat1 -> off_pole deg lat2 ->
  geodesic_inverse lat1 lon1 lat2 lon2 None deg = (s, az1, az2) -> 0 <= s /\ s <= PI * 6378137 + / 10 ^ 9 /\ s <= 10 ^ 8.
Proof.
  intros deg lat1 lon1 lat2 lon2 s az1 az2 P1 P2 E. destruct (C82_distance_range deg None lat1 lon1 lat2 lon2 s az1 az2 wgs84_round P1 P2 E) as [S U]. split; [exact S|]. cbn [ell_a] in U. pose proof PI_RGT_0 as PP. pose proof PI_4 as P4.
  assert (N : 0 <= third None ^ 7 <= 4 / 10 ^ 20). { split; [apply pow_le, (third_pos None wgs84_round)|]. apply Rle_trans with ((16793 / 10000000) ^ 7); [apply pow_incr, wgs84_third|simpl; lra]. }
  assert (Q : s <= PI * 6378137 + / 10 ^ 9). { apply Rle_trans with (1 := U). replace (PI * 6378137 * (1 + 10 * third None ^ 7)) with (PI * 6378137 + PI * (63781370 * third None ^ 7)) by ring. apply Rplus_le_compat_l.
    apply Rle_trans with (4 * (63781370 * (4 / 10 ^ 20))); [apply Rmult_le_compat; [lra|apply Rmult_le_pos; lra|lra|apply Rmult_le_compat_l; lra]|simpl; lra]. }
  split; [exact Q|]. apply Rle_trans with (1 := Q). apply Rle_trans with (4 * 6378137 + / 10 ^ 9); [lra|simpl; lra].
Qed.

(** ** C83 *)
(** The distance and the azimuth returned by geodesic_inverse, given to geodesic_direct,
    lead back to the second point, with the second azimuth: whenever the answer is that
    of a geodesic joining the points up to [err] (C71, C72). *)
Lemma third7 ell : round_enough ell -> 0 <= third ell ^ 7.
Proof. intros H. now apply pow_le, third_pos. Qed.
Lemma half_turn ell s : round_enough ell -> 0 <= s <= PI * ell_a ell * (1 + 10 * third ell ^ 7) -> Rabs s / ell_b ell <= 4.
Proof.
  intros H S. destruct (L_ell.ell_pos ell (proj1 H)) as [Pb Pa]. pose proof H as [_ Hf]. rewrite Rabs_right by lra. apply Rmult_le_reg_r with (ell_b ell); [lra|]. unfold Rdiv. rewrite Rmult_assoc, Rinv_l, Rmult_1_r by lra.
  pose proof PI_4. pose proof PI_RGT_0. pose proof L_ecefacc2.pi_half_up. pose proof (third_pos ell H) as T0.
  assert (T1 : third ell <= 1 / 150). { unfold third. apply Rmult_le_reg_r with (ell_a ell + ell_b ell); [lra|]. unfold Rdiv at 1. rewrite Rmult_assoc, Rinv_l by lra. lra. }
  assert (T7 : 0 <= third ell ^ 7 <= / 1000). { split; [now apply third7|]. apply Rle_trans with ((1 / 150) ^ 7); [apply pow_incr; lra|simpl; lra]. }
  apply Rle_trans with (1 := proj2 S). apply Rle_trans with (33 / 10 * ell_a ell * (1 + 10 * / 1000)); [apply Rmult_le_compat; [nra|lra|nra|lra]|]. lra.
Qed.
Theorem C83_roundtrip : forall deg ell lat1 lon1 lat2 lon2 s az1 az2 err lat2' lon2' az2', round_enough ell -> off_pole deg lat1 -> off_pole deg lat2 ->
  geodesic_inverse lat1 lon1 lat2 lon2 ell deg = (s, az1, az2) -> joins deg ell lat1 lon1 lat2 lon2 s az1 az2 err ->
  geodesic_direct lat1 lon1 az1 s ell deg = (lat2', lon2', az2') -> off_pole deg lat2' ->
  vdist3 (surface_point (ell_a ell) (ell_b ell) (as_rad deg lat2') (as_rad deg lon2')) (surface_point (ell_a ell) (ell_b ell) (as_rad deg lat2) (as_rad deg lon2)) <= ell_a ell * (err + 620 * third ell ^ 7) /\
  vdist3 (heading_vector (as_rad deg lat2') (as_rad deg lon2') (as_rad deg az2')) (heading_vector (as_rad deg lat2) (as_rad deg lon2) (as_rad deg az2)) <= err + 620 * third ell ^ 7.
Proof.
  intros deg ell lat1 lon1 lat2 lon2 s az1 az2 err lat2' lon2' az2' H P1 P2 E J D P3. destruct (C70_geodesic_exists deg ell lat1 lon1 az1 (proj1 H)) as (c & t & L). destruct (J c t L) as [A B].
  pose proof (C82_distance_range deg ell lat1 lon1 lat2 lon2 s az1 az2 H P1 P2 E) as S. pose proof (half_turn ell s H S) as S4. pose proof (third7 ell H) as N7.
  destruct (C70_direct_accuracy deg ell lat1 lon1 az1 s c t lat2' lon2' az2' H P1 L D P3) as [X Y]. cbv zeta in X, Y. destruct (L_ell.ell_pos ell (proj1 H)) as [Pb Pa].
  assert (K : third ell ^ 7 * (300 + 80 * (Rabs s / ell_b ell)) <= 620 * third ell ^ 7) by (rewrite (Rmult_comm 620); apply Rmult_le_compat_l; lra).
  rewrite (L_aer.vdist3_sym _ (c s)) in A. rewrite (L_aer.vdist3_sym _ (t s)) in B. split.
  - eapply Rle_trans; [apply (L_geodesic4.vdist3_triangle _ (c s))|]. rewrite Rmult_plus_distr_l, (Rplus_comm (ell_a ell * err)). apply Rplus_le_compat; [apply Rle_trans with (1 := X); apply Rmult_le_compat_l; lra|exact A].
  - eapply Rle_trans; [apply (L_geodesic4.vdist3_triangle _ (t s))|]. lra.
Qed.
(** With no condition on where geodesic_direct ends: the position, up to the clamp. *)
Theorem C83_roundtrip_position : forall deg ell lat1 lon1 lat2 lon2 s az1 az2 err lat2' lon2' az2', round_enough ell -> off_pole deg lat1 -> off_pole deg lat2 ->
  geodesic_inverse lat1 lon1 lat2 lon2 ell deg = (s, az1, az2) -> joins deg ell lat1 lon1 lat2 lon2 s az1 az2 err ->
  geodesic_direct lat1 lon1 az1 s ell deg = (lat2', lon2', az2') ->
  vdist3 (surface_point (ell_a ell) (ell_b ell) (as_rad deg lat2') (as_rad deg lon2')) (surface_point (ell_a ell) (ell_b ell) (as_rad deg lat2) (as_rad deg lon2)) <= ell_a ell * (err + 620 * third ell ^ 7) + ell_a ell / 2 ^ 25.
Proof.
  intros deg ell lat1 lon1 lat2 lon2 s az1 az2 err lat2' lon2' az2' H P1 P2 E J D. destruct (C70_geodesic_exists deg ell lat1 lon1 az1 (proj1 H)) as (c & t & L). destruct (J c t L) as [A B].
  pose proof (C82_distance_range deg ell lat1 lon1 lat2 lon2 s az1 az2 H P1 P2 E) as S. pose proof (half_turn ell s H S) as S4. pose proof (third7 ell H) as N7.
  pose proof (C70_direct_position_any_end deg ell lat1 lon1 az1 s c t lat2' lon2' az2' H P1 L D) as X. destruct (L_ell.ell_pos ell (proj1 H)) as [Pb Pa].
  assert (K : third ell ^ 7 * (300 + 80 * (Rabs s / ell_b ell)) <= 620 * third ell ^ 7) by (rewrite (Rmult_comm 620); apply Rmult_le_compat_l; lra).
  rewrite (L_aer.vdist3_sym _ (c s)) in A. eapply Rle_trans; [apply (L_geodesic4.vdist3_triangle _ (c s))|].
  assert (ell_a ell * (third ell ^ 7 * (300 + 80 * (Rabs s / ell_b ell))) <= ell_a ell * (620 * third ell ^ 7)) by (apply Rmult_le_compat_l; lra). rewrite Rmult_plus_distr_l. lra.
Qed.
(** On the Earth, with nothing assumed about the iteration: within 15 nanometres. *)
Theorem C83_roundtrip_earth : forall deg lat1 lon1 lat2 lon2 s az1 az2 lat2' lon2' az2', off_pole deg lat1 -> off_pole deg lat2 -> (lat1 <> 0 \/ lat2 <> 0) ->
  unit_angle (dir deg lat1 lon1) (dir deg lat2 lon2) <= 265 / 100 -> meridian_gap deg lon1 lon2 <= 265 / 100 ->
  geodesic_inverse lat1 lon1 lat2 lon2 None deg = (s, az1, az2) -> geodesic_direct lat1 lon1 az1 s None deg = (lat2', lon2', az2') -> off_pole deg lat2' ->
  vdist3 (surface_point (ell_a None) (ell_b None) (as_rad deg lat2') (as_rad deg lon2')) (surface_point (ell_a None) (ell_b None) (as_rad deg lat2) (as_rad deg lon2)) <= 15 / 10 ^ 9 /\
  vdist3 (heading_vector (as_rad deg lat2') (as_rad deg lon2') (as_rad deg az2')) (heading_vector (as_rad deg lat2) (as_rad deg lon2) (as_rad deg az2)) <= 2 / 10 ^ 15.
Proof.
  intros deg lat1 lon1 lat2 lon2 s az1 az2 lat2' lon2' az2' P1 P2 NZ A G E D P3.
  destruct (C83_roundtrip deg None lat1 lon1 lat2 lon2 s az1 az2 (19 / 10 ^ 16) lat2' lon2' az2' wgs84_round P1 P2 E (C71_inverse_accuracy_earth deg lat1 lon1 lat2 lon2 s az1 az2 P1 P2 NZ A G E) D P3) as [X Y].
  assert (N : third None ^ 7 <= 4 / 10 ^ 20) by (apply Rle_trans with ((16793 / 10000000) ^ 7); [apply pow_incr, wgs84_third|simpl; lra]).
  assert (Q : 19 / 10 ^ 16 + 620 * third None ^ 7 <= 2 / 10 ^ 15) by (apply Rle_trans with (19 / 10 ^ 16 + 620 * (4 / 10 ^ 20)); [lra|simpl; lra]).
  split; [|lra]. apply Rle_trans with (1 := X). apply Rle_trans with (ell_a None * (2 / 10 ^ 15)); [apply Rmult_le_compat_l; [cbn [ell_a]; lra|exact Q]|cbn [ell_a]; simpl; lra].
Qed.
(** geodesic_line ends at the target. *)
Theorem C46_line_reaches_target : forall lat1 lon1 lat2 lon2 ell npts deg lats lons s az1 az2 err, round_enough ell -> off_pole deg lat1 -> off_pole deg lat2 -> (2 <= npts)%nat ->
  geodesic_line lat1 lon1 lat2 lon2 ell npts deg = (lats, lons) -> geodesic_inverse lat1 lon1 lat2 lon2 ell deg = (s, az1, az2) -> joins deg ell lat1 lon1 lat2 lon2 s az1 az2 err ->
  vdist3 (surface_point (ell_a ell) (ell_b ell) (as_rad deg (nth (npts - 1) lats 0)) (as_rad deg (nth (npts - 1) lons 0))) (surface_point (ell_a ell) (ell_b ell) (as_rad deg lat2) (as_rad deg lon2))
    <= ell_a ell * (err + 620 * third ell ^ 7) + ell_a ell / 2 ^ 25.
Proof.
  intros lat1 lon1 lat2 lon2 ell npts deg lats lons s az1 az2 err H P1 P2 Hn G E J.
  destruct (C46_line_points lat1 lon1 lat2 lon2 ell npts deg lats lons s az1 az2 (npts - 1) Hn ltac:(lia) G E) as [z D].
  assert (N0 : 0 < INR (npts - 1)) by (apply lt_0_INR; lia). replace (s * (INR (npts - 1) / INR (npts - 1))) with s in D by (field; lra).
  exact (C83_roundtrip_position deg ell lat1 lon1 lat2 lon2 s az1 az2 err _ _ z H P1 P2 E J D).
Qed.
Theorem C46_line_reaches_target_earth : forall lat1 lon1 lat2 lon2 npts deg lats lons, off_pole deg lat1 -> off_pole deg lat2 -> (lat1 <> 0 \/ lat2 <> 0) -> (2 <= npts)%nat ->
  unit_angle (dir deg lat1 lon1) (dir deg lat2 lon2) <= 265 / 100 -> meridian_gap deg lon1 lon2 <= 265 / 100 ->
  geodesic_line lat1 lon1 lat2 lon2 None npts deg = (lats, lons) -> off_pole deg (nth (npts - 1) lats 0) ->
  vdist3 (surface_point (ell_a None) (ell_b None) (as_rad deg (nth (npts - 1) lats 0)) (as_rad deg (nth (npts - 1) lons 0))) (surface_point (ell_a None) (ell_b None) (as_rad deg lat2) (as_rad deg lon2)) <= 15 / 10 ^ 9.
Proof.
  intros lat1 lon1 lat2 lon2 npts deg lats lons P1 P2 NZ Hn A GP G P3. destruct (geodesic_inverse lat1 lon1 lat2 lon2 None deg) as [[s az1] az2] eqn:E.
  destruct (C46_line_points lat1 lon1 lat2 lon2 None npts deg lats lons s az1 az2 (npts - 1) Hn ltac:(lia) G E) as [z D].
  assert (N0 : 0 < INR (npts - 1)) by (apply lt_0_INR; lia). replace (s * (INR (npts - 1) / INR (npts - 1))) with s in D by (field; lra).
  exact (proj1 (C83_roundtrip_earth deg lat1 lon1 lat2 lon2 s az1 az2 _ _ z P1 P2 NZ A GP E D P3)).
Qed.
(** The hypotheses are met: the points of C71_example_earth; for the ranges also by
    antipodal points. *)
Example C82_example : off_pole true 45 /\ off_pole true (-45) /\ round_enough None /\ (exists s az1 az2, geodesic_inverse 45 10 (-45) (-170) None true = (s, az1, az2) /\ 0 <= s <= 10 ^ 8).
Proof.
  destruct C71_example_earth as (P1 & P2 & _). split; [exact P1|]. split; [exact P2|]. split; [exact wgs84_round|]. destruct (geodesic_inverse 45 10 (-45) (-170) None true) as [[s az1] az2] eqn:E.
  exists s, az1, az2. split; [reflexivity|]. destruct (C82_distance_range_earth true 45 10 (-45) (-170) s az1 az2 P1 P2 E) as (A & _ & B). lra.
Qed.
