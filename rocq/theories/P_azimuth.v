(** Properties C85, C87 (continued): the azimuths. The geodesic between two points that
    are not nearly antipodal is unique, and geodesic_inverse returns its azimuths at both
    ends; in particular it recovers the azimuth given to geodesic_direct. *)
From Coq Require Import Reals Lra Lia Psatz.
From Coquelicot Require Import Coquelicot.
From Verif Require Import PyMath M_ellipsoid M_karney Spec Spec_geodesic.
From Verif Require Import P_karney P_geodesic P_vincenty P_inverse P_vinacc P_converge P_distance P_shortest.
From Verif Require L_PyMath L_aer L_ell L_ecef L_karney2 L_series2 L_nvector L_vin3 L_geodesic3 L_geodesic4 L_short3 L_short7 L_short8 L_short9.
Open Scope R_scope.

(** ** Specification *)
(** The angle between two azimuths, in radians, between 0 and pi. *)
Definition azimuth_gap (deg : bool) (az az' : R) : R := acos (cos (as_rad deg az - as_rad deg az')).

Lemma gap_range deg az az' : 0 <= azimuth_gap deg az az' <= PI.
Proof. apply acos_bound. Qed.
Lemma gap_chord deg phi lam az az' : azimuth_gap deg az az' <= 2 * vdist3 (heading_vector phi lam (as_rad deg az)) (heading_vector phi lam (as_rad deg az')).
Proof.
  pose proof (L_PyMath.sc1 phi) as S1. pose proof (L_PyMath.sc1 lam) as S2. set (A := as_rad deg az). set (B := as_rad deg az').
  assert (U : forall x, is_unit (heading_vector phi lam x)).
  { intros x. pose proof (L_PyMath.sc1 x) as S3. unfold is_unit, heading_vector, north_axis, east_axis, vadd, vscale, vdot.
    match goal with |- ?z = 1 => replace z with (cos x * cos x * (sin phi * sin phi * (sin lam * sin lam + cos lam * cos lam) + cos phi * cos phi) + sin x * sin x * (sin lam * sin lam + cos lam * cos lam)) by ring end. rewrite S2, Rmult_1_r, S1. lra. }
  pose proof (L_short5.angle_chord _ _ (U A) (U B)) as Q. eapply Rle_trans; [|exact Q]. right. unfold azimuth_gap, unit_angle. f_equal. fold A B. rewrite cos_minus. unfold heading_vector, north_axis, east_axis, vadd, vscale, vdot.
  match goal with |- _ = ?z => replace z with (cos A * cos B * (sin phi * sin phi * (sin lam * sin lam + cos lam * cos lam) + cos phi * cos phi) + sin A * sin B * (sin lam * sin lam + cos lam * cos lam)) by ring end. rewrite S2, Rmult_1_r, S1. ring.
Qed.

(** ** C85 *)
(** At most one geodesic of length up to 2.7 a joins two points. *)
Theorem C85_geodesic_unique : forall ell c t s c' t' s', round_enough ell -> unit_geodesic (ell_a ell) (ell_b ell) c t -> unit_geodesic (ell_a ell) (ell_b ell) c' t' ->
  0 < s <= 27 / 10 * ell_a ell -> 0 <= s' <= 27 / 10 * ell_a ell -> c 0 = c' 0 -> c s = c' s' -> forall x, c x = c' x /\ t x = t' x.
Proof.
  intros ell c t s c' t' s' H G G' S S' E0 E1. destruct (flat_range ell H) as (F & Eb & Pa & _). rewrite Eb in G, G'. exact (L_short9.one_geodesic (ell_a ell) (flat ell) Pa F c t s c' t' s' G G' S S' E0 E1).
Qed.
(** Geodesics from one point that end close to each other have close azimuths at both
    ends (unless they are nearly half way round). *)
Lemma azimuths_close deg ell lat1 lon1 az s c t az' s' c' t' err : round_enough ell -> leaves deg ell lat1 lon1 az c t -> leaves deg ell lat1 lon1 az' c' t' ->
  0 < s <= 27 / 10 * ell_a ell -> 0 <= s' <= 27 / 10 * ell_a ell -> vdist3 (c s) (c' s') <= ell_a ell * err ->
  sin (s / ell_a ell) * azimuth_gap deg az az' <= 240 * err /\ sin (s / ell_a ell) * vdist3 (t s) (t' s') <= 120 * err.
Proof.
  intros H (G & G0 & T0) (G' & G0' & T0') S S' D. destruct (flat_range ell H) as (F & Eb & Pa & _). rewrite Eb in *.
  destruct (L_short9.direction_stable (ell_a ell) (flat ell) Pa F c t s c' t' s' G G' ltac:(rewrite G0, G0'; reflexivity) S S') as [Q1 Q2]. unfold L_short9.Dd in Q1, Q2.
  assert (DE : vdist3 (c s) (c' s') / ell_a ell <= err) by (apply Rmult_le_reg_r with (ell_a ell); [lra|]; unfold Rdiv; rewrite Rmult_assoc, Rinv_l by lra; lra).
  split; [|lra]. rewrite T0, T0' in Q1. pose proof (gap_chord deg (as_rad deg lat1) (as_rad deg lon1) az az') as GC.
  assert (S0 : 0 <= sin (s / ell_a ell)). { pose proof pi_314. apply sin_ge_0; [left; apply Rdiv_lt_0_compat; lra|]. apply Rle_trans with (27 / 10); [apply Rmult_le_reg_r with (ell_a ell); [lra|]; unfold Rdiv; rewrite Rmult_assoc, Rinv_l by lra; lra|lra]. }
  eapply Rle_trans; [apply Rmult_le_compat_l; [exact S0|exact GC]|]. lra.
Qed.
(** The azimuths geodesic_inverse returns are those of the geodesic between the two
    points: whichever geodesic of length up to 2.7 a joins them, its azimuth at the
    first point and its direction at the second are the ones returned. *)
Theorem C85_azimuths : forall T deg ell lat1 lon1 lat2 lon2 s az1 az2 az s0 c t, round_enough ell -> bound_ok T ell -> well_apart T deg ell lat1 lon1 lat2 lon2 ->
  geodesic_inverse lat1 lon1 lat2 lon2 ell deg = (s, az1, az2) ->
  leaves deg ell lat1 lon1 az c t -> 0 < s0 <= 27 / 10 * ell_a ell -> c s0 = place deg ell lat2 lon2 ->
  let err := 300 * third ell ^ 7 + 8 / 2 ^ 52 in
  Rabs (s - s0) <= 5 * (ell_a ell * err) /\
  sin (s0 / ell_a ell) * azimuth_gap deg az az1 <= 240 * err /\
  sin (s0 / ell_a ell) * vdist3 (heading_vector (as_rad deg lat2) (as_rad deg lon2) (as_rad deg az2)) (t s0) <= 121 * err.
Proof.
  intros T deg ell lat1 lon1 lat2 lon2 s az1 az2 az s0 c t H B W E LV S0 CE err. pose proof W as (P1 & P2 & NZ & AN & GP). pose proof B as [B1 B2]. pose proof pi_314 as PG. destruct (flat_range ell H) as (F & Eb & Pa & Pb).
  assert (J : joins deg ell lat1 lon1 lat2 lon2 s az1 az2 err) by (apply (C71_inverse_accuracy_away T); try assumption; lra).
  pose proof (err_small ell H) as [Z0 Z1]. fold err in Z0, Z1. destruct (C70_geodesic_exists deg ell lat1 lon1 az1 (proj1 H)) as (c' & t' & LV').
  pose proof (within_range deg ell lat1 lon1 lat2 lon2 s az1 az2 err c' t' H P1 P2 ltac:(lra) (length_bound _ _ _ _ _ _ _ _ _ H P1 P2 E) Z1 LV' J) as S. destruct (J c' t' LV') as [J1 J2]. fold (place deg ell lat2 lon2) in J1.
  destruct (azimuths_close deg ell lat1 lon1 az s0 c t az1 s c' t' err H LV LV' S0 S ltac:(rewrite CE; exact J1)) as [Q1 Q2].
  split; [|split; [exact Q1|]].
  - assert (0 <= ell_a ell * err) by (apply Rmult_le_pos; lra). destruct LV as (G & G0 & _). fold (place deg ell lat1 lon1) in G0. apply Rabs_le. split.
    + destruct (C85_attained T deg ell _ _ _ _ _ _ _ H B W E) as (d & L & D & Q). fold err in Q. pose proof (C85_geodesics_are_shortest ell c t s0 d L H G ltac:(lra)) as K. rewrite CE, G0 in K. specialize (K D). lra.
    + assert (WK : surface_walk ell c s0 (place deg ell lat1 lon1) (place deg ell lat2 lon2)). { rewrite <- G0, <- CE. apply walk_is; [exact H|]. rewrite Eb in G. apply (L_short7.walk_geo (ell_a ell) (flat ell) c t s0); [exact G|lra]. }
      pose proof (C85_shortest T deg ell _ _ _ _ _ _ _ H B W E c s0 WK) as K. fold err in K. lra.
  - assert (SB : 0 <= sin (s0 / ell_a ell) <= 1). { split; [apply sin_ge_0; [left; apply Rdiv_lt_0_compat; lra|]|apply SIN_bound]. apply Rle_trans with (27 / 10); [apply Rmult_le_reg_r with (ell_a ell); [lra|]; unfold Rdiv; rewrite Rmult_assoc, Rinv_l by lra; lra|lra]. }
    pose proof (L_geodesic4.vdist3_triangle (heading_vector (as_rad deg lat2) (as_rad deg lon2) (as_rad deg az2)) (t' s) (t s0)) as TR. rewrite (L_aer.vdist3_sym (t' s) (t s0)) in TR.
    pose proof (L_short8.vdist_pos (heading_vector (as_rad deg lat2) (as_rad deg lon2) (as_rad deg az2)) (t' s)) as VP.
    eapply Rle_trans; [apply Rmult_le_compat_l; [lra|exact TR]|]. rewrite Rmult_plus_distr_l. assert (sin (s0 / ell_a ell) * vdist3 (heading_vector (as_rad deg lat2) (as_rad deg lon2) (as_rad deg az2)) (t' s) <= 1 * err) by (apply Rmult_le_compat; lra). lra.
Qed.

(** ** C87 *)
(** geodesic_inverse recovers the azimuth given to geodesic_direct, and the azimuth of
    arrival, for every distance up to 2.7 a. *)
Theorem C87_azimuths_recovered : forall T deg ell lat1 lon1 az s lat2 lon2 az2 s' a b, round_enough ell -> bound_ok T ell -> 0 < s <= 27 / 10 * ell_a ell ->
  geodesic_direct lat1 lon1 az s ell deg = (lat2, lon2, az2) -> well_apart T deg ell lat1 lon1 lat2 lon2 ->
  geodesic_inverse lat1 lon1 lat2 lon2 ell deg = (s', a, b) ->
  let err := 920 * third ell ^ 7 + 8 / 2 ^ 52 in
  sin (s / ell_a ell) * azimuth_gap deg az a <= 240 * err /\ sin (s / ell_a ell) * azimuth_gap deg az2 b <= 244 * err.
Proof.
  intros T deg ell lat1 lon1 az s lat2 lon2 az2 s' a b H B S D W E err. destruct (C70_geodesic_exists deg ell lat1 lon1 az (proj1 H)) as (c & t & LV). pose proof W as (P1 & P2 & NZ & AN & GP). pose proof B as [B1 B2]. pose proof pi_314 as PG.
  destruct (C70_direct_accuracy deg ell lat1 lon1 az s c t lat2 lon2 az2 H P1 LV D P2) as [X1 X2]. cbv zeta in X1, X2. fold (place deg ell lat2 lon2) in X1.
  destruct (flat_range ell H) as (F & Eb & Pa & Pb). pose proof (third7 ell H) as N7. set (err0 := 300 * third ell ^ 7 + 8 / 2 ^ 52). pose proof (err_small ell H) as [Z0 Z1]. fold err0 in Z0, Z1. assert (K0 : 0 < 8 / 2 ^ 52) by (simpl; lra).
  assert (SB : Rabs s / ell_b ell <= 4). { rewrite Rabs_right by lra. apply Rmult_le_reg_r with (ell_b ell); [lra|]. unfold Rdiv. rewrite Rmult_assoc, Rinv_l by lra. nra. }
  assert (EB : third ell ^ 7 * (300 + 80 * (Rabs s / ell_b ell)) <= 620 * third ell ^ 7) by (rewrite (Rmult_comm 620); apply Rmult_le_compat_l; lra).
  assert (J : joins deg ell lat1 lon1 lat2 lon2 s' a b err0) by (apply (C71_inverse_accuracy_away T); try assumption; lra).
  destruct (C70_geodesic_exists deg ell lat1 lon1 a (proj1 H)) as (c' & t' & LV').
  pose proof (within_range deg ell lat1 lon1 lat2 lon2 s' a b err0 c' t' H P1 P2 ltac:(lra) (length_bound _ _ _ _ _ _ _ _ _ H P1 P2 E) Z1 LV' J) as S'. destruct (J c' t' LV') as [J1 J2]. fold (place deg ell lat2 lon2) in J1.
  assert (DD : vdist3 (c s) (c' s') <= ell_a ell * err). { eapply Rle_trans; [apply (L_geodesic4.vdist3_triangle _ (place deg ell lat2 lon2))|]. rewrite (L_aer.vdist3_sym (c s)). apply Rle_trans with (ell_a ell * (620 * third ell ^ 7) + ell_a ell * err0); [apply Rplus_le_compat; [eapply Rle_trans; [exact X1|apply Rmult_le_compat_l; lra]|exact J1]|]. unfold err, err0. right. ring. }
  destruct (azimuths_close deg ell lat1 lon1 az s c t a s' c' t' err H LV LV' S S' DD) as [Q1 Q2]. split; [exact Q1|].
  assert (SI : 0 <= sin (s / ell_a ell) <= 1). { split; [apply sin_ge_0; [left; apply Rdiv_lt_0_compat; lra|]|apply SIN_bound]. apply Rle_trans with (27 / 10); [apply Rmult_le_reg_r with (ell_a ell); [lra|]; unfold Rdiv; rewrite Rmult_assoc, Rinv_l by lra; lra|lra]. }
  pose proof (gap_chord deg (as_rad deg lat2) (as_rad deg lon2) az2 b) as GC. set (h := heading_vector (as_rad deg lat2) (as_rad deg lon2) (as_rad deg az2)) in *. set (h' := heading_vector (as_rad deg lat2) (as_rad deg lon2) (as_rad deg b)) in *.
  pose proof (L_geodesic4.vdist3_triangle h (t s) h') as T1. pose proof (L_geodesic4.vdist3_triangle (t s) (t' s') h') as T2. rewrite (L_aer.vdist3_sym (t' s') h') in T2. pose proof (L_short8.vdist_pos (t s) (t' s')) as V0.
  assert (BB : azimuth_gap deg az2 b <= 2 * vdist3 (t s) (t' s') + 2 * err) by (unfold err, err0 in *; lra).
  eapply Rle_trans; [apply Rmult_le_compat_l; [lra|exact BB]|]. assert (E0 : 0 <= err) by (unfold err; lra). assert (sin (s / ell_a ell) * (2 * err) <= 1 * (2 * err)) by (apply Rmult_le_compat_r; lra). lra.
Qed.
(** On the Earth, up to 17200 km: the azimuths are wrong by less than 20 micrometres
    sideways (2e-11 rad at 1000 km). *)
Lemma sin_above x : 0 <= x <= 27 / 10 -> 15 / 100 * x <= sin x.
Proof.
  intros Hx. pose proof pi_314. destruct (Rle_dec x (17 / 10)) as [A|A]; [destruct (Req_dec x 0) as [->|N]; [rewrite sin_0; lra|pose proof (L_short3.sin_ge_half x ltac:(lra)); lra]|].
  rewrite <- sin_PI_x. pose proof pi_3145. assert (Q : sin (44 / 100) <= sin (PI - x)) by (apply sin_incr_1; lra). destruct (L_series2.sin_taylor (44 / 100)) as (th & Th & Es). apply Rabs_le_between in Th. rewrite Es in Q. lra.
Qed.
Theorem C87_azimuths_recovered_earth : forall deg lat1 lon1 az s lat2 lon2 az2 s' a b, 0 < s <= 17200000 ->
  geodesic_direct lat1 lon1 az s None deg = (lat2, lon2, az2) -> well_apart (267 / 100) deg None lat1 lon1 lat2 lon2 ->
  geodesic_inverse lat1 lon1 lat2 lon2 None deg = (s', a, b) ->
  s * azimuth_gap deg az a <= 2 / 10 ^ 5 /\ s * azimuth_gap deg az2 b <= 2 / 10 ^ 5.
Proof.
  intros deg lat1 lon1 az s lat2 lon2 az2 s' a b S D W E. destruct (C87_azimuths_recovered _ deg None lat1 lon1 az s lat2 lon2 az2 s' a b wgs84_round earth_bound ltac:(cbn [ell_a]; lra) D W E) as [Q1 Q2]. cbv zeta in Q1, Q2.
  assert (EE : 920 * third None ^ 7 + 8 / 2 ^ 52 <= 19 / 10 ^ 16). { assert (920 * third None ^ 7 <= / 10 ^ 16); [|simpl in *; lra]. apply Rle_trans with (920 * (16793 / 10000000) ^ 7); [|simpl; lra]. apply Rmult_le_compat_l; [lra|]. apply pow_incr, wgs84_third. }
  set (err := 920 * third None ^ 7 + 8 / 2 ^ 52) in *. clearbody err. cbn [ell_a] in Q1, Q2. pose proof (sin_above (s / 6378137) ltac:(lra)) as SA. pose proof (gap_range deg az a) as [R1 _]. pose proof (gap_range deg az2 b) as [R2 _].
  set (g1 := azimuth_gap deg az a) in *. set (g2 := azimuth_gap deg az2 b) in *. clearbody g1 g2.
  assert (K1 : 15 / 100 * (s / 6378137) * g1 <= sin (s / 6378137) * g1) by (apply Rmult_le_compat_r; lra). assert (K2 : 15 / 100 * (s / 6378137) * g2 <= sin (s / 6378137) * g2) by (apply Rmult_le_compat_r; lra).
  set (w := sin (s / 6378137)) in *. clearbody w. replace (15 / 100 * (s / 6378137) * g1) with (15 / 100 / 6378137 * (s * g1)) in K1 by field. replace (15 / 100 * (s / 6378137) * g2) with (15 / 100 / 6378137 * (s * g2)) in K2 by field.
  set (p1 := s * g1) in *. set (p2 := s * g2) in *. clearbody p1 p2. simpl in *. split; lra.
Qed.
(** The hypotheses are met (those of C87_azimuths_recovered by C87_example): a geodesic
    that joins two points a third of a turn apart on the unit sphere. *)
Example C85_example_geodesic : exists az s0 c t, leaves true (Some unit_sphere) 45 10 az c t /\ 0 < s0 <= 27 / 10 * ell_a (Some unit_sphere) /\ c s0 = place true (Some unit_sphere) (-45) 100 /\
  well_apart (267 / 100) true (Some unit_sphere) 45 10 (-45) 100.
Proof.
  destruct C87_example as (H & _ & s & az & az2 & S & D & W). destruct (C70_geodesic_exists true (Some unit_sphere) 45 10 az (proj1 H)) as (c & t & LV). exists az, s, c, t. split; [exact LV|]. split; [exact S|]. split; [|exact W]. pose proof W as (P1 & P2 & _).
  destruct (C70_direct_accuracy true (Some unit_sphere) 45 10 az s c t (-45) 100 az2 H P1 LV D P2) as [X _]. cbv zeta in X. fold (place true (Some unit_sphere) (-45) 100) in X. replace (third (Some unit_sphere)) with 0 in X by (unfold third; cbn [ell_a ell_b unit_sphere semimajor_axis semiminor_axis]; field).
  rewrite pow_ne_zero, Rmult_0_l, Rmult_0_r in X by lia. pose proof (L_short8.vdist_pos (place true (Some unit_sphere) (-45) 100) (c s)) as V. pose proof (L_short8.vdist_sq (place true (Some unit_sphere) (-45) 100) (c s)) as V2. replace (vdist3 (place true (Some unit_sphere) (-45) 100) (c s)) with 0 in V2 by lra.
  destruct (c s) as [[x y] z], (place true (Some unit_sphere) (-45) 100) as [[x' y'] z']. cbn [fst snd] in V2. pose proof (pow2_ge_0 (x' - x)). pose proof (pow2_ge_0 (y' - y)). pose proof (pow2_ge_0 (z' - z)). assert (x' - x = 0) by nra. assert (y' - y = 0) by nra. assert (z' - z = 0) by nra. apply f_equal2; [apply f_equal2|]; lra.
Qed.
