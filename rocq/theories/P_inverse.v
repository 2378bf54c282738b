(** Properties C71, C72: the answer of geodesic_inverse describes a true geodesic of the
    ellipsoid that joins the two points. *)
From Coq Require Import Reals Lra Lia Psatz.
From Verif Require Import PyMath M_ellipsoid M_karney Spec Spec_geodesic.
From Verif Require Import P_karney P_geodesic.
From Verif Require P_vincenty L_ell L_karney L_karney2 L_karney3 L_karney5 L_karney6 L_geodesic4 L_geodesic6 L_geodesic8 L_geodesic10 L_geodesic11 L_geodesic12 L_geodesic13 L_PyMath.
Open Scope R_scope.

(** ** Specification *)
(** A traveller who leaves the first point with the azimuth [az1] along the geodesic
    is, after the distance [s], within [a * err] of the second point, on a course
    within [err] of the azimuth [az2]. *)
Definition joins (deg : bool) (ell : option Ellipsoid) (lat1 lon1 lat2 lon2 s az1 az2 err : R) : Prop :=
  forall c t, leaves deg ell lat1 lon1 az1 c t ->
  vdist3 (surface_point (ell_a ell) (ell_b ell) (as_rad deg lat2) (as_rad deg lon2)) (c s) <= ell_a ell * err /\
  vdist3 (heading_vector (as_rad deg lat2) (as_rad deg lon2) (as_rad deg az2)) (t s) <= err.
(** The iteration for the departure azimuth stopped because the longitude it reaches
    misses the target by at most [v] radians. *)
Definition stopped_within (deg : bool) (ell : option Ellipsoid) (lat1 lon1 lat2 lon2 v : R) : Prop :=
  L_geodesic10.settles (get_geodesic ell) (L_geodesic11.inv_A (to_deg deg lat1) (to_deg deg lat2)) (L_geodesic11.inv_B (to_deg deg lat1) (to_deg deg lat2))
    (Rabs (AngNormalize (to_deg deg lon2 - to_deg deg lon1))) v.

Lemma turn_surface a b phi l k : surface_point a b phi (l + IZR k * (2 * PI)) = surface_point a b phi l /\ forall az, heading_vector phi (l + IZR k * (2 * PI)) az = heading_vector phi l az.
Proof.
  assert (S : sin (l + IZR k * (2 * PI)) = sin l) by apply L_PyMath.sin_period_Z.
  assert (C : cos (l + IZR k * (2 * PI)) = cos l) by apply L_PyMath.cos_period_Z.
  unfold surface_point, heading_vector, north_axis, east_axis. rewrite S, C. split; reflexivity.
Qed.
Lemma joins_of_conn deg ell lat1 lon1 lat2 lon2 s az1 az2 v : round_enough ell ->
  (exists d lx, L_geodesic8.conn (ell_a ell) (ell_b ell) (as_rad deg lat1) (as_rad deg az1) (as_rad deg lat2) (as_rad deg az2) d lx /\
    Rabs (d - s) <= 80 * ell_b ell * third ell ^ 7 /\ Rabs (lx - radians (AngNormalize (to_deg deg lon2 - to_deg deg lon1))) <= 208 * third ell ^ 7 + v) ->
  joins deg ell lat1 lon1 lat2 lon2 s az1 az2 (300 * third ell ^ 7 + v).
Proof.
  intros [Ho Hf] (d & lx & C & D & E) c t (G & G0 & G1). destruct (L_ell.ell_pos ell Ho) as [Pb Pa]. set (a := ell_a ell) in *. set (b := ell_b ell) in *.
  destruct (L_karney.AngNormalize_congr (to_deg deg lon2 - to_deg deg lon1)) as [k Ek]. set (dl := AngNormalize _) in *.
  assert (LL : as_rad deg lon1 + radians dl = as_rad deg lon2 + IZR k * (2 * PI)).
  { rewrite Ek. unfold Rminus. rewrite <- !to_rad. unfold radians. field. }
  destruct (L_geodesic8.conn_near a b (as_rad deg lat1) (as_rad deg az1) (as_rad deg lat2) (as_rad deg az2) d lx (as_rad deg lon1) c t s (as_rad deg lon1 + radians dl) ltac:(lra) C ltac:(now split)) as [P Q].
  rewrite LL in P, Q. destruct (turn_surface a b (as_rad deg lat2) (as_rad deg lon2) k) as [T1 T2]. rewrite T1 in P. rewrite T2 in Q. rewrite <- LL in P, Q.
  replace (as_rad deg lon1 + radians dl - (as_rad deg lon1 + lx)) with (- (lx - radians dl)) in P, Q by ring. rewrite Rabs_Ropp in P, Q.
  set (n7 := third ell ^ 7) in *. assert (N0 : 0 <= n7). { unfold n7, third. apply pow_le. apply Rmult_le_pos; [unfold a, b in *; lra|left; apply Rinv_0_lt_compat; unfold a, b in *; lra]. }
  split.
  - eapply Rle_trans; [exact P|]. assert (a * Rabs (lx - radians dl) <= a * (208 * n7 + v)) by (apply Rmult_le_compat_l; lra). assert (80 * b * n7 <= 80 * a * n7) by nra. assert (0 <= a * n7) by nra. nra.
  - eapply Rle_trans; [exact Q|].
    assert (B : a ^ 3 / b ^ 4 * Rabs (d - s) <= 90 * n7).
    { apply Rle_trans with (a ^ 3 / b ^ 4 * (80 * b * n7)). { apply Rmult_le_compat_l; [|exact D]. apply Rmult_le_pos; [apply pow_le; lra|left; apply Rinv_0_lt_compat, pow_lt; lra]. }
      replace (a ^ 3 / b ^ 4 * (80 * b * n7)) with (80 * n7 * (a / b) ^ 3) by (field; lra).
      assert (AB : 0 <= a / b <= 100 / 99). { split; [apply Rmult_le_pos; [lra|left; apply Rinv_0_lt_compat; lra]|]. apply Rmult_le_reg_r with b; [lra|]. unfold Rdiv at 1. rewrite Rmult_assoc, Rinv_l by lra. unfold a, b in *. lra. }
      apply Rle_trans with (80 * n7 * (100 / 99) ^ 3); [|nra]. apply Rmult_le_compat_l; [lra|]. apply pow_incr. exact AB. }
    lra.
Qed.
Lemma round_geodesic ell : round_enough ell -> L_karney5.oblate (get_geodesic ell) /\ gd_a (get_geodesic ell) = ell_a ell /\ gd_b (get_geodesic ell) = ell_b ell /\
  gd_f (get_geodesic ell) <= 1 / 100 /\ gd_n (get_geodesic ell) = third ell /\ gd_f (get_geodesic ell) = (ell_a ell - ell_b ell) / ell_a ell.
Proof.
  intros [Ho Hf]. destruct (L_karney5.get_oblate ell Ho) as (O & Ea & Eb). destruct (L_ell.ell_pos ell Ho) as [Pb Pa].
  pose proof O as (Hab & F & F1 & B1 & _ & En & _).
  assert (Ef : gd_f (get_geodesic ell) = (ell_a ell - ell_b ell) / ell_a ell) by (rewrite F1, Ea, Eb in B1; rewrite B1 at 1; field; lra).
  repeat (split; [assumption|]). split; [|split; [|exact Ef]].
  - rewrite Ef. apply Rmult_le_reg_r with (ell_a ell); [lra|]. replace ((ell_a ell - ell_b ell) / ell_a ell * ell_a ell) with (ell_a ell - ell_b ell) by (field; lra). lra.
  - rewrite En, Ef; unfold third; field; lra.
Qed.
Lemma open_lat deg lat : off_pole deg lat -> -90 < to_deg deg lat < 90 /\ k_tiny <= cos (radians (to_deg deg lat)).
Proof.
  intros H. destruct (off_pole_deg _ _ H) as [A B]. split; [|exact B]. pose proof L_karney2.tiny_pos as T.
  assert (X : to_deg deg lat <> 90). { intros E. rewrite E in B. replace (radians 90) with (PI / 2) in B by (unfold radians; field). rewrite cos_PI2 in B. lra. }
  assert (Y : to_deg deg lat <> -90). { intros E. rewrite E in B. replace (radians (-90)) with (- (PI / 2)) in B by (unfold radians; field). rewrite cos_neg, cos_PI2 in B. lra. }
  lra.
Qed.
Lemma to_deg_0 deg x : to_deg deg x = 0 -> x = 0.
Proof. destruct deg; cbn [to_deg]; [auto|]. intros E. rewrite <- (L_karney3.rad_deg x), E. unfold radians, Rdiv. ring. Qed.

(** ** C71 *)
(** Any two points off the poles and not both on the equator: when the iteration has
    stopped with the residual [v], the distance and the two azimuths returned are
    those of a geodesic from the first point that ends within 300 n^7 + v of the
    second.  Missing: that the iteration always stops by itself (with v = 8 * 2^-52)
    before its limit of 31 rounds. *)
Theorem C71_inverse_accuracy_partial : forall deg ell lat1 lon1 lat2 lon2 s az1 az2 v, round_enough ell -> off_pole deg lat1 -> off_pole deg lat2 -> (lat1 <> 0 \/ lat2 <> 0) ->
  stopped_within deg ell lat1 lon1 lat2 lon2 v -> geodesic_inverse lat1 lon1 lat2 lon2 ell deg = (s, az1, az2) ->
  joins deg ell lat1 lon1 lat2 lon2 s az1 az2 (300 * third ell ^ 7 + v).
Proof.
  intros deg ell lat1 lon1 lat2 lon2 s az1 az2 v H P1 P2 NZ V E. apply joins_of_conn; [exact H|]. destruct (round_geodesic ell H) as (O & Ea & Eb & Hf & En & _).
  destruct (open_lat _ _ P1) as [Q1 T1]. destruct (open_lat _ _ P2) as [Q2 T2]. rewrite inverse_open in E.
  pose proof (L_geodesic11.inverse_conn (get_geodesic ell) (to_deg deg lat1) (to_deg deg lon1) (to_deg deg lat2) (to_deg deg lon2) v O Hf Q1 Q2) as C.
  destruct (Inverse _ _ _ _ _) as [[s' x] y]. injection E as <- <- <-. rewrite !of_rad, <- !to_rad. rewrite Ea, Eb, En in C. apply C; [|exact T1|exact T2|left; exact V].
  destruct NZ as [Z|Z]; [left|right]; intros X; apply Z; now apply to_deg_0 in X.
Qed.
(** Points on the same or on opposite meridians: always, with no condition on the
    iteration (none is needed). *)
Theorem C72_inverse_same_meridian : forall deg ell lat1 lon1 lat2 lon2 s az1 az2, round_enough ell -> off_pole deg lat1 -> off_pole deg lat2 -> (lat1 <> 0 \/ lat2 <> 0) ->
  sin (as_rad deg lon2 - as_rad deg lon1) = 0 -> geodesic_inverse lat1 lon1 lat2 lon2 ell deg = (s, az1, az2) ->
  joins deg ell lat1 lon1 lat2 lon2 s az1 az2 (300 * third ell ^ 7).
Proof.
  intros deg ell lat1 lon1 lat2 lon2 s az1 az2 H P1 P2 NZ Z E. rewrite <- (Rplus_0_r (300 * _)). apply joins_of_conn; [exact H|]. destruct (round_geodesic ell H) as (O & Ea & Eb & Hf & En & _).
  destruct (open_lat _ _ P1) as [Q1 T1]. destruct (open_lat _ _ P2) as [Q2 T2]. rewrite inverse_open in E.
  pose proof (L_geodesic11.inverse_conn (get_geodesic ell) (to_deg deg lat1) (to_deg deg lon1) (to_deg deg lat2) (to_deg deg lon2) 0 O Hf Q1 Q2) as C.
  destruct (Inverse _ _ _ _ _) as [[s' x] y]. injection E as <- <- <-. rewrite !of_rad, <- !to_rad. rewrite Ea, Eb, En in C.
  assert (NZ' : to_deg deg lat1 <> 0 \/ to_deg deg lat2 <> 0) by (destruct NZ as [N|N]; [left|right]; intros X; apply N; now apply to_deg_0 in X).
  apply C; [exact NZ'|exact T1|exact T2|right]. cbv zeta. clear C.
  set (x1 := to_deg deg lat1) in *. set (x2 := to_deg deg lat2) in *. set (dl := AngNormalize _).
  assert (SZ : sin (radians (Rabs dl)) = 0).
  { assert (S0 : sin (radians dl) = 0).
    { unfold dl. destruct (L_karney.AngNormalize_congr (to_deg deg lon2 - to_deg deg lon1)) as [k ->].
      replace (radians (to_deg deg lon2 - to_deg deg lon1 + IZR k * 360)) with (as_rad deg lon2 - as_rad deg lon1 + IZR k * (2 * PI)) by (rewrite <- !to_rad; unfold radians; field).
      rewrite L_PyMath.sin_period_Z. exact Z. }
    unfold Rabs. destruct (Rcase_abs dl); [|exact S0]. replace (radians (- dl)) with (- radians dl) by (unfold radians; field). rewrite sin_neg, S0. ring. }
  split; [exact SZ|]. split; [lra|].
  assert (AL : forall u w, Rabs (u * L_karney6.lneg w) = Rabs u).
  { intros u w. rewrite Rabs_mult. replace (Rabs (L_karney6.lneg w)) with 1; [ring|]. destruct (L_karney6.lneg_cases w) as [-> | ->]; [now rewrite Rabs_R1|]. replace (-1) with (-(1)) by lra. now rewrite Rabs_Ropp, Rabs_R1. }
  assert (AT : forall u, k_tiny <= cos (radians u) -> k_tiny <= cos (radians (u * L_karney6.lneg u))).
  { intros u K. destruct (L_karney6.lneg_cases u) as [-> | ->]; [now rewrite Rmult_1_r|]. replace (radians (u * -1)) with (- radians u) by (unfold radians; field). now rewrite cos_neg. }
  assert (A1 : Rabs x1 < 90) by (apply Rabs_def1; lra). assert (A2 : Rabs x2 < 90) by (apply Rabs_def1; lra).
  pose proof (Rabs_pos x1). pose proof (Rabs_pos x2).
  apply L_geodesic12.meridian_taken; [exact O|exact Hf| | | |exact SZ]; unfold L_geodesic11.inv_A, L_geodesic11.inv_B, L_geodesic11.far_lat, L_geodesic11.near_lat.
  - rewrite L_karney6.lneg_abs. destruct (Rlt_dec (Rabs x1) (Rabs x2)); [lra|]. assert (0 < Rabs x1); [|lra]. destruct NZ' as [N|N]; apply Rabs_pos_lt in N; lra.
  - rewrite AL, L_karney6.lneg_abs. destruct (Rlt_dec (Rabs x1) (Rabs x2)); lra.
  - apply AT. destruct (Rlt_dec (Rabs x1) (Rabs x2)); assumption.
Qed.
(** Points of the equator at most (1 - f) half turns apart: exactly. *)
Theorem C72_inverse_equator : forall lon1 L ell deg s az1 az2 c t, ell_ok ell -> 0 < L < half deg -> L <= half deg * (ell_b ell / ell_a ell) ->
  geodesic_inverse 0 lon1 0 (lon1 + L) ell deg = (s, az1, az2) -> leaves deg ell 0 lon1 az1 c t ->
  c s = surface_point (ell_a ell) (ell_b ell) 0 (as_rad deg (lon1 + L)) /\ t s = heading_vector 0 (as_rad deg (lon1 + L)) (as_rad deg az2).
Proof.
  intros lon1 L ell deg s az1 az2 c t H HL HL2 E (G & G0 & G1). destruct (C68_equator lon1 L ell deg 0 H HL HL2) as [Q _]. simpl IZR in Q. rewrite Rmult_0_l, Rplus_0_r, E in Q. injection Q as -> -> ->.
  destruct (L_ell.ell_pos ell H) as [Pb Pa].
  assert (F : 0 <= (ell_a ell - ell_b ell) / ell_a ell < 1). { split; [apply Rmult_le_pos; [lra|left; apply Rinv_0_lt_compat; lra]|]. apply Rmult_lt_reg_r with (ell_a ell); [lra|]. unfold Rdiv. rewrite Rmult_assoc, Rinv_l by lra. lra. }
  pose proof (L_geodesic13.equator_conn (ell_a ell) ((ell_a ell - ell_b ell) / ell_a ell) (as_rad deg L) ltac:(lra) F) as C.
  replace (ell_a ell * (1 - (ell_a ell - ell_b ell) / ell_a ell)) with (ell_b ell) in C by (field; lra).
  assert (Q1 : as_rad deg (quarter deg) = PI / 2) by (destruct deg; cbn [as_rad quarter]; field).
  assert (Q0 : as_rad deg 0 = 0) by (destruct deg; cbn [as_rad]; field).
  assert (QL : as_rad deg (lon1 + L) = as_rad deg lon1 + as_rad deg L) by (destruct deg; cbn [as_rad]; field).
  rewrite Q0, ?Q1 in *. rewrite QL. apply C. split; [exact G|]. split; assumption.
Qed.
(** A check the user can make: compare the point geodesic_direct reaches with the
    target.  Whatever the iteration did, the true geodesic ends within that distance
    (plus the error of geodesic_direct, C70) of the target. *)
Theorem C71_roundtrip_check_sound : forall deg ell lat1 lon1 lat2 lon2 s az1 az2 lat2' lon2' az2' c t, round_enough ell -> off_pole deg lat1 -> off_pole deg lat2' ->
  geodesic_inverse lat1 lon1 lat2 lon2 ell deg = (s, az1, az2) -> geodesic_direct lat1 lon1 az1 s ell deg = (lat2', lon2', az2') -> leaves deg ell lat1 lon1 az1 c t ->
  let target := surface_point (ell_a ell) (ell_b ell) (as_rad deg lat2) (as_rad deg lon2) in
  vdist3 target (c s) <= vdist3 target (surface_point (ell_a ell) (ell_b ell) (as_rad deg lat2') (as_rad deg lon2')) + ell_a ell * (third ell ^ 7 * (300 + 80 * (Rabs s / ell_b ell))).
Proof.
  intros deg ell lat1 lon1 lat2 lon2 s az1 az2 lat2' lon2' az2' c t H P1 P2 _ D L target. destruct (C70_direct_accuracy deg ell lat1 lon1 az1 s c t lat2' lon2' az2' H P1 L D P2) as [A _].
  eapply Rle_trans; [apply (L_geodesic4.vdist3_triangle _ (surface_point (ell_a ell) (ell_b ell) (as_rad deg lat2') (as_rad deg lon2')))|]. apply Rplus_le_compat_l. exact A.
Qed.
(** On the Earth: points of the same or of opposite meridians within a nanometre. *)
Theorem C72_inverse_same_meridian_earth : forall deg lat1 lon1 lat2 lon2 s az1 az2, off_pole deg lat1 -> off_pole deg lat2 -> (lat1 <> 0 \/ lat2 <> 0) ->
  sin (as_rad deg lon2 - as_rad deg lon1) = 0 -> geodesic_inverse lat1 lon1 lat2 lon2 None deg = (s, az1, az2) ->
  joins deg None lat1 lon1 lat2 lon2 s az1 az2 (/ 10 ^ 16).
Proof.
  intros deg lat1 lon1 lat2 lon2 s az1 az2 P1 P2 NZ Z E c t L. destruct (C72_inverse_same_meridian deg None lat1 lon1 lat2 lon2 s az1 az2 wgs84_round P1 P2 NZ Z E c t L) as [A B].
  assert (Q : 300 * third None ^ 7 <= / 10 ^ 16).
  { apply Rle_trans with (300 * (16793 / 10000000) ^ 7); [|simpl; lra]. apply Rmult_le_compat_l; [lra|]. apply pow_incr, wgs84_third. }
  split; [apply Rle_trans with (1 := A); apply Rmult_le_compat_l; [cbn [ell_a]; lra|exact Q]|lra].
Qed.

(** ** C46, C49: consequences for geodesic_line and for zero distances *)
(** The points of geodesic_line lie, up to the error of geodesic_direct, on one
    geodesic, at equal distances. *)
Theorem C46_line_on_geodesic : forall lat1 lon1 lat2 lon2 ell npts deg lats lons d azi1 azi2 c t i, round_enough ell -> off_pole deg lat1 -> (2 <= npts)%nat -> (i < npts)%nat ->
  geodesic_line lat1 lon1 lat2 lon2 ell npts deg = (lats, lons) -> geodesic_inverse lat1 lon1 lat2 lon2 ell deg = (d, azi1, azi2) -> leaves deg ell lat1 lon1 azi1 c t ->
  let s := d * (INR i / INR (npts - 1)) in
  vdist3 (surface_point (ell_a ell) (ell_b ell) (as_rad deg (nth i lats 0)) (as_rad deg (nth i lons 0))) (c s)
    <= ell_a ell * (third ell ^ 7 * (300 + 80 * (Rabs s / ell_b ell))) + ell_a ell / 2 ^ 25.
Proof.
  intros lat1 lon1 lat2 lon2 ell npts deg lats lons d azi1 azi2 c t i H P1 Hn Hi E I L s.
  destruct (C46_line_points lat1 lon1 lat2 lon2 ell npts deg lats lons d azi1 azi2 i Hn Hi E I) as [z D]. fold s in D.
  exact (C70_direct_position_any_end deg ell lat1 lon1 azi1 s c t _ _ z H P1 L D).
Qed.
(** Distance zero on any ellipsoid: the start is returned up to 300 n^7, with the
    azimuth, wherever it is off the poles. *)
Theorem C49_zero_distance_residual : forall deg ell lat1 lon1 az1 lat2 lon2 az2, round_enough ell -> off_pole deg lat1 ->
  geodesic_direct lat1 lon1 az1 0 ell deg = (lat2, lon2, az2) -> off_pole deg lat2 ->
  vdist3 (surface_point (ell_a ell) (ell_b ell) (as_rad deg lat2) (as_rad deg lon2)) (surface_point (ell_a ell) (ell_b ell) (as_rad deg lat1) (as_rad deg lon1)) <= ell_a ell * (300 * third ell ^ 7) /\
  vdist3 (heading_vector (as_rad deg lat2) (as_rad deg lon2) (as_rad deg az2)) (heading_vector (as_rad deg lat1) (as_rad deg lon1) (as_rad deg az1)) <= 300 * third ell ^ 7.
Proof.
  intros deg ell lat1 lon1 az1 lat2 lon2 az2 H P1 D P2. destruct (C70_geodesic_exists deg ell lat1 lon1 az1 (proj1 H)) as (c & t & L).
  pose proof (C70_direct_accuracy deg ell lat1 lon1 az1 0 c t lat2 lon2 az2 H P1 L D P2) as Q. cbv zeta in Q. destruct L as (_ & G0 & G1). rewrite G0, G1, Rabs_R0 in Q.
  replace (300 + 80 * (0 / ell_b ell)) with 300 in Q by (unfold Rdiv; ring). rewrite (Rmult_comm (third ell ^ 7)) in Q. exact Q.
Qed.
(** Hypotheses met: a body that is not a sphere, two points a quarter turn apart. *)
Definition nearly_round : Ellipsoid :=
  mkEllipsoid "" "" (2 ^ 54) (2 ^ 54 - 1) ((2 ^ 54 - (2 ^ 54 - 1)) / 2 ^ 54) ((2 ^ 54 - (2 ^ 54 - 1)) / (2 ^ 54 + (2 ^ 54 - 1))) (sqrt (1 - (2 ^ 54 - 1) ^ 2 / (2 ^ 54) ^ 2)).
Lemma nearly_round_ok : round_enough (Some nearly_round).
Proof.
  assert (P : 2 < 2 ^ 54) by (simpl; lra). split; cbn [ell_ok ell_a ell_b nearly_round semimajor_axis semiminor_axis]; [|simpl; lra].
  unfold valid_ell. cbn [nearly_round semimajor_axis semiminor_axis flattening thirdflattening eccentricity]. set (a := 2 ^ 54) in *. clearbody a.
  repeat split; try lra; [apply sqrt_pos|]. apply pow2_sqrt. assert ((a - 1) ^ 2 / a ^ 2 <= 1); [|lra]. apply Rmult_le_reg_r with (a ^ 2); [nra|]. unfold Rdiv. rewrite Rmult_assoc, Rinv_l by nra. nra.
Qed.
Lemma off_pole_45 : off_pole true 45 /\ off_pole true 0.
Proof.
  split; (split; [unfold P_vincenty.lat_ok; cbn [quarter]; lra|]); unfold as_rad.
  - replace (45 * PI / 180) with (PI / 4) by field. rewrite cos_PI4. assert (0 < sqrt 2) by (apply sqrt_lt_R0; lra). assert (sqrt 2 <= 2) by (rewrite <- (sqrt_square 2) at 2 by lra; apply sqrt_le_1; lra).
    apply Rmult_le_reg_r with (sqrt 2); [assumption|]. unfold Rdiv. rewrite Rmult_assoc, Rinv_l by lra. simpl. lra.
  - replace (0 * PI / 180) with 0 by (unfold Rdiv; ring). rewrite cos_0. simpl. lra.
Qed.
Example C71_example : round_enough (Some nearly_round) /\ ell_b (Some nearly_round) < ell_a (Some nearly_round) /\ off_pole true 45 /\ off_pole true 0 /\
  stopped_within true (Some nearly_round) 45 0 0 90 (/ 2 ^ 50).
Proof.
  destruct off_pole_45 as [P1 P2]. split; [exact nearly_round_ok|]. split; [cbn [ell_a ell_b nearly_round semimajor_axis semiminor_axis]; lra|]. split; [exact P1|]. split; [exact P2|].
  destruct (round_geodesic _ nearly_round_ok) as (O & _ & _ & _ & _ & Ef). unfold stopped_within. cbn [to_deg].
  assert (Ef' : 4 * gd_f (get_geodesic (Some nearly_round)) = / 2 ^ 52). { rewrite Ef. cbn [ell_a ell_b nearly_round semimajor_axis semiminor_axis]. simpl. field. }
  assert (IA : L_geodesic11.inv_A 45 0 = -45 /\ L_geodesic11.inv_B 45 0 = 0).
  { unfold L_geodesic11.inv_A, L_geodesic11.inv_B, L_geodesic11.far_lat, L_geodesic11.near_lat, L_karney6.lneg. rewrite Rabs_R0. destruct (Rlt_dec (Rabs 45) 0) as [X|_]; [pose proof (Rabs_pos 45); lra|]. destruct (Rlt_dec 45 0); lra. }
  destruct IA as [-> ->]. replace (90 - 0) with 90 by ring. rewrite L_karney.AngNormalize_id by lra. rewrite Rabs_right by lra.
  destruct (open_lat _ _ P1) as [_ T]. cbn [to_deg] in T.
  pose proof (L_geodesic13.quarter_settles (get_geodesic (Some nearly_round)) (-45) O ltac:(rewrite Ef'; unfold k_tol0; simpl; lra) ltac:(lra) ltac:(replace (radians (-45)) with (- radians 45) by (unfold radians; field); now rewrite cos_neg)) as S.
  rewrite Ef' in S. unfold L_geodesic10.settles in *. destruct (L_geodesic10.search _ _ _ _) as [[sa ca] r]. destruct S as [S1 S2]. split; [exact S1|]. apply Rle_trans with (1 := S2). simpl. lra.
Qed.
Example C72_example : round_enough None /\ off_pole true 45 /\ off_pole true 0 /\ sin (as_rad true 200 - as_rad true 20) = 0.
Proof. split; [exact wgs84_round|]. destruct off_pole_45 as [P1 P2]. split; [exact P1|]. split; [exact P2|]. unfold as_rad. replace (200 * PI / 180 - 20 * PI / 180) with PI by field. apply sin_PI. Qed.
