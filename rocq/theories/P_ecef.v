(** Properties C01-C07: geodetic <-> ECEF. *)
From Verif Require Import PyMath M_ellipsoid M_ecef Spec.
From Verif Require L_ell L_ecef L_ecefrt L_ecefsurj L_ecefprops L_ecefarr.
Open Scope R_scope.

(** C01 *)
Theorem C01_surface_point : forall lat lon ell deg, ell_ok ell ->
  on_ellipsoid (ell_a ell) (ell_b ell) (geodetic2ecef lat lon 0 ell deg).
Proof. intros. now apply L_ecef.g2e_surface. Qed.
Print Assumptions C01_surface_point.

Theorem C01_displaced_along_normal : forall lat lon h ell deg, ell_ok ell ->
  geodetic2ecef lat lon h ell deg
  = vadd (geodetic2ecef lat lon 0 ell deg)
         (vscale h (unit_normal (as_rad deg lat) (as_rad deg lon))).
Proof. intros. now apply L_ecef.g2e_normal. Qed.
Print Assumptions C01_displaced_along_normal.

Theorem C01_normal_is_outward_unit_normal : forall lat lon ell deg, ell_ok ell ->
  vdot (unit_normal (as_rad deg lat) (as_rad deg lon))
       (unit_normal (as_rad deg lat) (as_rad deg lon)) = 1 /\
  exists k, 0 < k /\
    gradient (ell_a ell) (ell_b ell) (geodetic2ecef lat lon 0 ell deg)
    = vscale k (unit_normal (as_rad deg lat) (as_rad deg lon)).
Proof. intros. split; [apply L_ecef.unit_normal_unit | now apply L_ecef.g2e_gradient]. Qed.
Print Assumptions C01_normal_is_outward_unit_normal.

Example C01_hypotheses_met : ell_ok None /\ ell_ok (Some L_ell.ex_ell).
Proof. split; [exact I | exact L_ell.ex_ell_ok]. Qed.

(** C02 *)
Theorem C02_injective : forall ell lat1 lon1 h1 lat2 lon2 h2 deg,
  ell_ok ell -> 0 <= h1 -> 0 <= h2 ->
  geodetic2ecef lat1 lon1 h1 ell deg = geodetic2ecef lat2 lon2 h2 ell deg ->
  h1 = h2 /\
  unit_normal (as_rad deg lat1) (as_rad deg lon1)
  = unit_normal (as_rad deg lat2) (as_rad deg lon2).
Proof. exact L_ecef.g2e_injective. Qed.
Print Assumptions C02_injective.

Theorem C02_injective_off_poles : forall ell lat1 lon1 h1 lat2 lon2 h2 deg,
  ell_ok ell -> 0 <= h1 -> 0 <= h2 ->
  - quarter deg < lat1 < quarter deg -> - quarter deg < lat2 < quarter deg ->
  - half deg < lon1 <= half deg -> - half deg < lon2 <= half deg ->
  geodetic2ecef lat1 lon1 h1 ell deg = geodetic2ecef lat2 lon2 h2 ell deg ->
  lat1 = lat2 /\ lon1 = lon2 /\ h1 = h2.
Proof. exact L_ecef.g2e_injective_latlon. Qed.
Print Assumptions C02_injective_off_poles.

Theorem C02_surjective_on_exterior : forall ell deg x y z, ell_ok ell ->
  1 <= x ^ 2 / ell_a ell ^ 2 + y ^ 2 / ell_a ell ^ 2 + z ^ 2 / ell_b ell ^ 2 ->
  exists lat lon h, - quarter deg <= lat <= quarter deg /\ - half deg < lon <= half deg /\
    0 <= h /\ geodetic2ecef lat lon h ell deg = (x, y, z).
Proof. exact L_ecefsurj.g2e_surj. Qed.
Print Assumptions C02_surjective_on_exterior.

Example C02_hypotheses_met :
  exists lat1 lon1 h1, ell_ok None /\ 0 <= h1 /\ - quarter true < lat1 < quarter true /\
    - half true < lon1 <= half true /\
    geodetic2ecef lat1 lon1 h1 None true = geodetic2ecef lat1 lon1 h1 None true.
Proof. exists 42, (-71), 300. unfold quarter, half. repeat split; lra. Qed.

(** C03 *)
Theorem C03_roundtrip_surface : forall ell lat lon deg,
  ell_ok ell -> - quarter deg < lat < quarter deg -> - half deg < lon <= half deg ->
  let '(x, y, z) := geodetic2ecef lat lon 0 ell deg in
  ecef2geodetic x y z ell deg = (lat, lon, 0).
Proof. exact L_ecefrt.roundtrip_surface. Qed.
Print Assumptions C03_roundtrip_surface.

(** At the poles the longitude is not recoverable and is reported as 0; the
    hypothesis 1e-8 < b is the tolerance of [isclose(z, 0)]. *)
Theorem C03_roundtrip_poles : forall ell lon h deg (south : bool),
  ell_ok ell -> 1 / 100000000 < ell_b ell + h ->
  let lat := (if south then - quarter deg else quarter deg) in
  let '(x, y, z) := geodetic2ecef lat lon h ell deg in
  ecef2geodetic x y z ell deg = (lat, 0, h).
Proof. exact L_ecefrt.roundtrip_pole. Qed.
Print Assumptions C03_roundtrip_poles.

(** Arrays.  On and outside the ellipsoid, every element is what the scalar call
    gives, on the polar axis and wherever the point is more than 1e-8 from the
    axis and the latitude more than 2^-52 rad from the poles. *)
Theorem C03_array_agrees_with_scalar : forall x y z ell deg, ell_ok ell -> 1 / 100000000 < ell_b ell ->
  1 <= x ^ 2 / ell_a ell ^ 2 + y ^ 2 / ell_a ell ^ 2 + z ^ 2 / ell_b ell ^ 2 ->
  (x = 0 /\ y = 0 \/
   1 / 100000000 < sqrt (x ^ 2 + y ^ 2) /\
   (let '(lat, _, _) := ecef2geodetic x y z ell deg in Rabs (as_rad deg lat) < PI / 2 - / 2 ^ 52)) ->
  ecef2geodetic_array ((x, y, z) :: nil) ell deg = (ecef2geodetic x y z ell deg) :: nil.
Proof. intros. unfold ecef2geodetic_array. cbn [List.map]. f_equal. now apply L_ecefarr.lane_scalar. Qed.
Theorem C03_roundtrip_poles_array : forall ell lon h deg (south : bool),
  ell_ok ell -> 1 / 100000000 < ell_b ell -> 0 <= h ->
  let lat := (if south then - quarter deg else quarter deg) in
  ecef2geodetic_array (geodetic2ecef lat lon h ell deg :: nil) ell deg = (lat, 0, h) :: nil.
Proof. exact L_ecefarr.roundtrip_pole_array. Qed.
Theorem C03_roundtrip_surface_array : forall ell lat lon deg,
  ell_ok ell -> 1 / 100000000 < ell_b ell ->
  Rabs (as_rad deg lat) < PI / 2 - / 2 ^ 52 -> - half deg < lon <= half deg ->
  1 / 100000000 < ell_a ell * cos (as_rad deg lat) ->
  ecef2geodetic_array (geodetic2ecef lat lon 0 ell deg :: nil) ell deg = (lat, lon, 0) :: nil.
Proof. exact L_ecefarr.roundtrip_surface_array. Qed.

Example C03_hypotheses_met :
  ell_ok None /\ - quarter true < 42 < quarter true /\ - half true < -71 <= half true
  /\ 1 / 100000000 < ell_b None + 100.
Proof. unfold quarter, half, ell_b. repeat split; lra. Qed.

(** C04 *)
Theorem C04_roundtrip_sphere : forall ell lat lon h deg,
  ell_ok ell -> ell_a ell = ell_b ell -> - ell_a ell < h ->
  - quarter deg < lat < quarter deg -> - half deg < lon <= half deg ->
  let '(x, y, z) := geodetic2ecef lat lon h ell deg in
  ecef2geodetic x y z ell deg = (lat, lon, h).
Proof. exact L_ecefrt.roundtrip_sphere. Qed.
Print Assumptions C04_roundtrip_sphere.

Example C04_hypotheses_met :
  let s := mkEllipsoid "" "" 10 10 0 0 0 in
  ell_ok (Some s) /\ ell_a (Some s) = ell_b (Some s) /\ - ell_a (Some s) < -3.
Proof.
  unfold ell_ok, valid_ell, ell_a, ell_b.
  cbn [semimajor_axis semiminor_axis flattening thirdflattening eccentricity].
  repeat split; lra.
Qed.

(** C05: exact on the equatorial plane (any height above the centre) and on the
    polar axis (C03_roundtrip_poles) ... *)
Theorem C05_roundtrip_equator_partial : forall ell lon h deg,
  ell_ok ell -> - ell_a ell < h -> - half deg < lon <= half deg ->
  let '(x, y, z) := geodetic2ecef 0 lon h ell deg in
  ecef2geodetic x y z ell deg = (0, lon, h).
Proof. exact L_ecefrt.roundtrip_equator. Qed.
Print Assumptions C05_roundtrip_equator_partial.

(** ... but not everywhere: You's closed form is a one-step approximation. *)
Theorem C05_roundtrip_refuted :
  exists ell lat lon h, ell_ok ell /\ -90 < lat < 90 /\ -180 < lon <= 180 /\ 0 <= h /\
    let '(x, y, z) := geodetic2ecef lat lon h ell true in
    ecef2geodetic x y z ell true <> (lat, lon, h).
Proof. exact L_ecefsurj.roundtrip_not_exact. Qed.
Print Assumptions C05_roundtrip_refuted.

Example C05_hypotheses_met : ell_ok None /\ - ell_a None < -1000000 /\ - half false < 1 <= half false.
Proof. unfold ell_a, half. pose proof PI2_1. repeat split; lra. Qed.

(** C06: scalar path and one lane of the array path. *)
Theorem C06_ranges : forall x y z ell deg, ell_ok ell ->
  let '(lat, lon, alt) := ecef2geodetic x y z ell deg in
  - quarter deg <= lat <= quarter deg /\ - half deg < lon <= half deg /\
  (alt < 0 <->
   x ^ 2 / ell_a ell ^ 2 + y ^ 2 / ell_a ell ^ 2 + z ^ 2 / ell_b ell ^ 2 < 1).
Proof. exact L_ecefprops.e2g_ranges. Qed.
Print Assumptions C06_ranges.

Theorem C06_ranges_array : forall x y z ell deg, ell_ok ell ->
  let '(lat, lon, alt) := ecef2geodetic_lane x y z ell deg in
  - quarter deg <= lat <= quarter deg /\ - half deg < lon <= half deg /\
  (alt < 0 <->
   x ^ 2 / ell_a ell ^ 2 + y ^ 2 / ell_a ell ^ 2 + z ^ 2 / ell_b ell ^ 2 < 1).
Proof. exact L_ecefprops.e2g_lane_ranges. Qed.
Print Assumptions C06_ranges_array.

Example C06_hypotheses_met : ell_ok None. Proof. exact I. Qed.

(** C07 *)
Theorem C07_rotation_changes_only_longitude : forall x y z ell deg theta,
  let x' := x * cos theta - y * sin theta in
  let y' := x * sin theta + y * cos theta in
  let '(lat, lon, alt) := ecef2geodetic x y z ell deg in
  let '(lat', lon', alt') := ecef2geodetic x' y' z ell deg in
  lat' = lat /\ alt' = alt /\
  (x <> 0 \/ y <> 0 ->
   exists k, as_rad deg lon' = as_rad deg lon + theta + IZR k * (2 * PI)).
Proof. exact L_ecefprops.e2g_rotation. Qed.
Print Assumptions C07_rotation_changes_only_longitude.

Theorem C07_mirror_negates_latitude : forall x y z ell deg,
  let '(lat, lon, alt) := ecef2geodetic x y z ell deg in
  ecef2geodetic x y (- z) ell deg = (- lat, lon, alt).
Proof. exact L_ecefprops.e2g_mirror. Qed.
Print Assumptions C07_mirror_negates_latitude.

Theorem C07_mirror_negates_latitude_array : forall x y z ell deg,
  let lane x y z := ecef2geodetic_array ((x, y, z) :: nil) ell deg in
  forall lat lon alt, lane x y z = (lat, lon, alt) :: nil -> lane x y (- z) = (- lat, lon, alt) :: nil.
Proof.
  intros x y z ell deg lane lat lon alt. unfold lane, ecef2geodetic_array. cbn [List.map].
  intros H. assert (E : ecef2geodetic_lane x y z ell deg = (lat, lon, alt)) by congruence.
  pose proof (L_ecefarr.lane_mirror x y z ell deg) as M. rewrite E in M. now rewrite M.
Qed.
(** An array call treats its elements independently. *)
Theorem C07_array_elementwise : forall pts ell deg n p, List.nth_error pts n = Some p ->
  exists q, List.nth_error (ecef2geodetic_array pts ell deg) n = Some q /\
  ecef2geodetic_array (p :: nil) ell deg = q :: nil.
Proof.
  intros pts ell deg n [[x y] z] H. eexists. split; [|reflexivity].
  unfold ecef2geodetic_array. exact (List.map_nth_error _ _ _ H).
Qed.

Example C07_hypotheses_met : (1 : R) <> 0 \/ (0 : R) <> 0.
Proof. left. lra. Qed.
