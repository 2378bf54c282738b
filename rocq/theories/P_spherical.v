(** C55: geodetic / geocentric spherical coordinates *)
From Coq Require Import Lia Psatz.
From Verif Require Import PyMath L_PyMath M_ellipsoid M_ecef M_spherical Spec.
From Verif Require Import L_ell L_spherical.
From Verif Require L_ecef L_latitude.
Open Scope R_scope.

(** Far enough from the centre: outside the ellipse that contains the evolute of
    the meridian.  Every point with non-negative altitude qualifies when
    a^2 < 2 b^2 ([C55_positive_altitude_far]). *)
Definition outside_core (a b : R) (p : vec3) : Prop :=
  let '(x, y, z) := p in
  (1 - b ^ 2 / a ^ 2) ^ 2 < (x ^ 2 + y ^ 2) / a ^ 2 + b ^ 2 / a ^ 4 * z ^ 2.

Lemma far_core ell rho phi lam : ell_ok ell ->
  outside_core (ell_a ell) (ell_b ell) (vscale rho (unit_normal phi lam))
  <-> far ell (rho * cos phi) (rho * sin phi).
Proof.
  intros H. destruct (ell_pos ell H) as [Hb Ha]. unfold outside_core, vscale, unit_normal, far.
  rewrite (ell_e2 ell H).
  replace ((rho * (cos phi * cos lam)) ^ 2 + (rho * (cos phi * sin lam)) ^ 2) with ((rho * cos phi) ^ 2).
  2: { pose proof (sc1 lam). transitivity ((rho * cos phi) ^ 2 * (sin lam * sin lam + cos lam * cos lam)); [rewrite H0; ring|ring]. }
  replace ((1 - (1 - ell_b ell ^ 2 / ell_a ell ^ 2)) / ell_a ell ^ 2) with (ell_b ell ^ 2 / ell_a ell ^ 4) by (field; lra).
  tauto.
Qed.

(** geodetic2ecef in the meridian plane. *)
Lemma g2e_plane ell lat lon h deg : ell_ok ell ->
  let p := as_rad deg lat in let E := eccentricity (resolve_ellipsoid ell) ^ 2 in
  let N := ell_a ell ^ 2 / hypot (ell_a ell * cos p) (ell_b ell * sin p) in
  geodetic2ecef lat lon h ell deg
  = ((N + h) * cos p * cos (as_rad deg lon), (N + h) * cos p * sin (as_rad deg lon), (N * (1 - E) + h) * sin p)
  /\ ell_b ell ^ 2 / ell_a ell <= N * (1 - E) /\ N * (1 - E) <= N /\ 0 < N.
Proof.
  intros H. destruct (ell_pos ell H) as [Hb Ha]. cbv zeta. rewrite (L_ecef.g2e_unfold ell H). cbv zeta.
  set (p := as_rad deg lat). pose proof (acbs_pos (ell_a ell) (ell_b ell) p Hb Ha) as W.
  pose proof (hypot_pow2 (ell_a ell * cos p) (ell_b ell * sin p)) as W2.
  set (w := hypot _ _) in *. rewrite (ell_e2 ell H).
  assert (EN : ell_a ell ^ 2 / w * (1 - (1 - ell_b ell ^ 2 / ell_a ell ^ 2)) = ell_b ell ^ 2 / w) by (field; lra).
  rewrite EN. split; [reflexivity|].
  assert (L : w <= ell_a ell).
  { assert (w ^ 2 <= ell_a ell ^ 2); [|nra]. rewrite W2. pose proof (sin_pow2 p). pose proof (cos_le1 p). pose proof (sq_nonneg (cos p)). 
    replace ((ell_b ell * sin p) ^ 2) with (ell_b ell ^ 2 * sin p ^ 2) by ring. replace ((ell_a ell * cos p) ^ 2) with (ell_a ell ^ 2 * cos p ^ 2) by ring. rewrite H0.
    assert (ell_b ell ^ 2 * (1 - cos p ^ 2) <= ell_a ell ^ 2 * (1 - cos p ^ 2)) by (apply Rmult_le_compat_r; [lra|apply pow_incr; lra]). lra. }
  assert (B2 : 0 < ell_b ell ^ 2) by (apply pow_lt; lra).
  split; [|split].
  - unfold Rdiv. apply Rmult_le_compat_l; [lra|]. apply Rinv_le_contravar; lra.
  - unfold Rdiv. apply Rmult_le_compat_r; [left; apply Rinv_0_lt_compat; lra|]. nra.
  - apply Rdiv_lt_0_compat; [apply pow_lt; lra|lra].
Qed.

Lemma rad_q deg lat : - quarter deg <= lat <= quarter deg -> - PI/2 <= rad_in deg lat <= PI/2.
Proof. destruct deg; cbn; unfold radians; pose proof PI_RGT_0; intros; [split; nra|lra]. Qed.
Lemma q_out deg p : - PI/2 <= p <= PI/2 -> - quarter deg <= deg_out deg p <= quarter deg.
Proof.
  destruct deg; cbn; [|lra]. pose proof PI_RGT_0. intros [A B]. apply degrees_le in A, B.
  rewrite degrees_PI2 in B. replace (- PI/2) with (- (PI/2)) in A by lra. rewrite degrees_opp, degrees_PI2 in A. lra.
Qed.
Lemma asin_polar r s : 0 < r -> - PI/2 <= s <= PI/2 -> asin (r * sin s / r) = s.
Proof. intros. replace (r * sin s / r) with (sin s) by (field; lra). apply asin_sin. lra. Qed.

(** geodetic2spherical returns the spherical coordinates of the ECEF position. *)
Theorem C55_spherical_form_of_ecef : forall ell lat lon alt deg slat slon r, ell_ok ell ->
  - quarter deg <= lat <= quarter deg -> - (ell_b ell ^ 2 / ell_a ell) < alt ->
  geodetic2spherical lat lon alt ell deg = (slat, slon, r) ->
  0 < r /\ - quarter deg <= slat <= quarter deg /\ slon = lon /\
  geodetic2ecef lat lon alt ell deg = vscale r (unit_normal (as_rad deg slat) (as_rad deg lon)).
Proof.
  intros ell lat lon alt deg slat slon r H Hl Ha Eq. change as_rad with rad_in.
  pose proof (rad_q _ _ Hl) as Hr. destruct (ell_pos ell H) as [Hb Hab].
  destruct (g2e_plane ell lat lon alt deg H) as (EG & B1 & B2 & B3). change as_rad with rad_in in *. cbv zeta in EG, B1, B2, B3.
  rewrite EG. clear EG. unfold geodetic2spherical in Eq. cbv zeta in Eq. rewrite (coslat_eq _ Hr), deg_out_rad_in, resolve_a, resolve_b in Eq.
  set (N := ell_a ell ^ 2 / _) in *. set (E := eccentricity _ ^ 2) in *. set (p := rad_in deg lat) in *.
  set (X := (alt + N) * cos p) in *. set (Z := (alt + (1 - E) * N) * sin p) in *.
  assert (NX : 0 < alt + N) by lra. assert (NZ : 0 < alt + (1 - E) * N) by lra.
  assert (Hc : 0 <= cos p) by (apply cos_ge_0; lra).
  assert (HX : 0 <= X) by (apply Rmult_le_pos; lra).
  assert (HXZ : X <> 0 \/ Z <> 0).
  { destruct (Req_dec (cos p) 0) as [C|C].
    - right. pose proof (sc1 p) as S. unfold Z. apply Rmult_integral_contrapositive. split; [lra|]. intros S0. rewrite C, S0 in S. lra.
    - left. unfold X. apply Rmult_integral_contrapositive. split; lra. }
  pose proof (hypot_pos X Z HXZ) as HH. set (t := atan2 Z X).
  assert (CX : X = hypot X Z * cos t) by (symmetry; apply hypot_cos_atan2).
  assert (CZ : Z = hypot X Z * sin t) by (symmetry; apply hypot_sin_atan2).
  assert (Rt : - PI/2 <= t <= PI/2) by (apply atan2_right, HX).
  assert (As : asin (Z / hypot X Z) = t) by (rewrite CZ at 1; apply asin_polar; assumption).
  rewrite As in Eq. apply pair_equal_spec in Eq. destruct Eq as [Eq E3]. apply pair_equal_spec in Eq. destruct Eq as [E1 E2].
  subst slat slon r. split; [exact HH|]. split; [apply q_out, Rt|]. split; [reflexivity|].
  rewrite rad_in_deg_out. unfold vscale, unit_normal.
  apply f_equal2; [apply f_equal2|].
  - transitivity (X * cos (rad_in deg lon)); [unfold X; ring|]. rewrite CX at 1. ring.
  - transitivity (X * sin (rad_in deg lon)); [unfold X; ring|]. rewrite CX at 1. ring.
  - transitivity Z; [unfold Z; ring|exact CZ].
Qed.

(** spherical2geodetic is exact: the geodetic position returned is the point. *)
Theorem C55_spherical2geodetic_exact : forall ell slat slon r deg lat lon alt, ell_ok ell ->
  - quarter deg <= slat <= quarter deg -> 0 <= r ->
  outside_core (ell_a ell) (ell_b ell) (vscale r (unit_normal (as_rad deg slat) (as_rad deg slon))) ->
  spherical2geodetic slat slon r ell deg = (lat, lon, alt) ->
  - quarter deg <= lat <= quarter deg /\ lon = slon /\
  geodetic2ecef lat lon alt ell deg = vscale r (unit_normal (as_rad deg slat) (as_rad deg slon)).
Proof.
  intros ell slat slon r deg lat lon alt H Hl Hr Hf Eq. change as_rad with rad_in in *.
  pose proof (rad_q _ _ Hl) as Hq. rewrite (far_core ell r _ _ H) in Hf.
  assert (Hc : 0 <= cos (rad_in deg slat)) by (apply cos_ge_0; lra).
  rewrite (s2g_form _ _ _ _ _ Hq) in Eq. cbv zeta in Eq.
  pose proof (s2g_exact ell H _ _ Hf ltac:(apply Rmult_le_pos; lra)) as X. cbv zeta in X.
  set (k := vk _ _ _) in *. set (D := k * (r * cos _) / (k + _)) in *. set (Z := r * sin (rad_in deg slat)) in *.
  set (phi := 2 * atan2 Z (D + hypot D Z)) in *. set (h := (k + _ - 1) / k * hypot D Z) in *.
  apply pair_equal_spec in Eq. destruct Eq as [Eq E3]. apply pair_equal_spec in Eq. destruct Eq as [E1 E2]. subst lat lon alt.
  destruct X as (X1 & X2 & X3 & _). split; [apply q_out, X1|]. split; [reflexivity|].
  destruct (g2e_plane ell (deg_out deg phi) slon h deg H) as (EG & _). cbv zeta in EG. rewrite EG.
  change as_rad with rad_in. rewrite rad_in_deg_out. unfold vscale, unit_normal.
  apply f_equal2; [apply f_equal2|].
  - rewrite <- X2. ring.
  - rewrite <- X2. ring.
  - rewrite <- X3. reflexivity.
Qed.

(** Geodetic -> spherical -> geodetic is the identity. *)
Theorem C55_geodetic_roundtrip : forall ell lat lon alt deg, ell_ok ell ->
  - quarter deg <= lat <= quarter deg -> - (ell_b ell ^ 2 / ell_a ell) < alt ->
  outside_core (ell_a ell) (ell_b ell) (geodetic2ecef lat lon alt ell deg) ->
  let '(slat, slon, r) := geodetic2spherical lat lon alt ell deg in
  spherical2geodetic slat slon r ell deg = (lat, lon, alt).
Proof.
  intros ell lat lon alt deg H Hl Ha Hf.
  destruct (geodetic2spherical lat lon alt ell deg) as [[slat slon] r] eqn:Eq.
  destruct (C55_spherical_form_of_ecef ell lat lon alt deg slat slon r H Hl Ha Eq) as (R0 & Rs & -> & EG).
  rewrite EG in Hf. rewrite (far_core ell r _ _ H) in Hf. change as_rad with rad_in in *.
  pose proof (rad_q _ _ Rs) as Hq. pose proof (rad_q _ _ Hl) as Hq'.
  rewrite (s2g_form _ _ _ _ _ Hq). cbv zeta.
  destruct (g2e_plane ell lat lon alt deg H) as (EG' & B1 & B2 & B3). cbv zeta in EG', B1, B2, B3. change as_rad with rad_in in *.
  rewrite EG' in EG. unfold vscale, unit_normal in EG.
  set (N := ell_a ell ^ 2 / _) in *. set (E := eccentricity _ ^ 2) in *. set (p := rad_in deg lat) in *. set (q := rad_in deg slat) in *.
  apply pair_equal_spec in EG. destruct EG as [EG E3]. apply pair_equal_spec in EG. destruct EG as [E1 E2].
  assert (EX : r * cos q = (N + alt) * cos p).
  { pose proof (sc1 (rad_in deg lon)) as S.
    transitivity (r * cos q * (sin (rad_in deg lon) * sin (rad_in deg lon) + cos (rad_in deg lon) * cos (rad_in deg lon))); [rewrite S; ring|].
    transitivity ((r * (cos q * sin (rad_in deg lon))) * sin (rad_in deg lon) + (r * (cos q * cos (rad_in deg lon))) * cos (rad_in deg lon)); [ring|].
    rewrite <- E1, <- E2. transitivity ((N + alt) * cos p * (sin (rad_in deg lon) * sin (rad_in deg lon) + cos (rad_in deg lon) * cos (rad_in deg lon))); [ring|].
    rewrite S. ring. }
  rewrite EX, <- E3 in *.
  destruct (s2g_inverse ell H p alt Hq' ltac:(fold N E; lra) ltac:(fold N E; exact Hf)) as [Y1 Y2].
  fold N E in Y1, Y2. rewrite Y1, Y2. unfold p. rewrite deg_out_rad_in. reflexivity.
Qed.

(** Spherical -> geodetic -> spherical is the identity. *)
Theorem C55_spherical_roundtrip : forall ell slat slon r deg, ell_ok ell ->
  - quarter deg <= slat <= quarter deg -> 0 <= r ->
  outside_core (ell_a ell) (ell_b ell) (vscale r (unit_normal (as_rad deg slat) (as_rad deg slon))) ->
  let '(lat, lon, alt) := spherical2geodetic slat slon r ell deg in
  - (ell_b ell ^ 2 / ell_a ell) < alt -> geodetic2spherical lat lon alt ell deg = (slat, slon, r).
Proof.
  intros ell slat slon r deg H Hl Hr Hf.
  destruct (spherical2geodetic slat slon r ell deg) as [[lat lon] alt] eqn:Eq. intros Ha.
  destruct (C55_spherical2geodetic_exact ell slat slon r deg lat lon alt H Hl Hr Hf Eq) as (L1 & -> & EG).
  destruct (geodetic2spherical lat slon alt ell deg) as [[sl so] r'] eqn:Eq'.
  destruct (C55_spherical_form_of_ecef ell lat slon alt deg sl so r' H L1 Ha Eq') as (R0 & Rs & -> & EG').
  rewrite EG in EG'. unfold vscale, unit_normal in EG'. change as_rad with rad_in in *.
  pose proof (rad_q _ _ Rs) as Q1. pose proof (rad_q _ _ Hl) as Q2.
  set (q1 := rad_in deg sl) in *. set (q2 := rad_in deg slat) in *.
  apply pair_equal_spec in EG'. destruct EG' as [EG' E3]. apply pair_equal_spec in EG'. destruct EG' as [E1 E2].
  assert (Ec : r * cos q2 = r' * cos q1).
  { pose proof (sc1 (rad_in deg slon)) as S.
    transitivity ((r * (cos q2 * sin (rad_in deg slon))) * sin (rad_in deg slon) + (r * (cos q2 * cos (rad_in deg slon))) * cos (rad_in deg slon)).
    - transitivity (r * cos q2 * (sin (rad_in deg slon) * sin (rad_in deg slon) + cos (rad_in deg slon) * cos (rad_in deg slon))); [rewrite S; ring|ring].
    - rewrite E1, E2. transitivity (r' * cos q1 * (sin (rad_in deg slon) * sin (rad_in deg slon) + cos (rad_in deg slon) * cos (rad_in deg slon))); [ring|rewrite S; ring]. }
  assert (Er : r = r').
  { assert (r ^ 2 = r' ^ 2); [|nra]. pose proof (sc1 q1). pose proof (sc1 q2).
    transitivity ((r * cos q2) ^ 2 + (r * sin q2) ^ 2); [transitivity (r ^ 2 * (sin q2 * sin q2 + cos q2 * cos q2)); [rewrite H1; ring|ring]|].
    rewrite Ec, E3. transitivity (r' ^ 2 * (sin q1 * sin q1 + cos q1 * cos q1)); [ring|rewrite H0; ring]. }
  subst r'. assert (Es : sin q1 = sin q2) by (apply Rmult_eq_reg_l with r; lra).
  assert (Eq12 : q1 = q2).
  { rewrite <- (asin_sin q1), <- (asin_sin q2) by lra. now rewrite Es. }
  apply f_equal2; [|reflexivity]. apply f_equal2; [|reflexivity].
  rewrite <- (deg_out_rad_in deg sl), <- (deg_out_rad_in deg slat). fold q1 q2. now rewrite Eq12.
Qed.

(** The side condition holds for every altitude >= 0 on any body with a^2 < 2 b^2
    (flattening below 0.29; every built-in model). *)
Theorem C55_positive_altitude_far : forall ell lat lon alt deg, ell_ok ell ->
  ell_a ell ^ 2 < 2 * ell_b ell ^ 2 -> 0 <= alt ->
  outside_core (ell_a ell) (ell_b ell) (geodetic2ecef lat lon alt ell deg).
Proof.
  intros ell lat lon alt deg H Hab Ha. destruct (ell_pos ell H) as [Hb Hle].
  destruct (g2e_plane ell lat lon alt deg H) as (EG & _ & _ & HN). cbv zeta in EG, HN. rewrite EG. clear EG.
  unfold outside_core. change as_rad with rad_in in *. set (p := rad_in deg lat) in *. set (l := rad_in deg lon).
  pose proof (ell_e2 ell H) as HE. set (E := eccentricity _ ^ 2) in *. rewrite <- HE.
  destruct (geodetic_quartic ell H p alt) as (_ & ER & EZ & _). cbv zeta in ER, EZ. fold E in ER, EZ.
  pose proof (acbs_pos (ell_a ell) (ell_b ell) p Hb Hle) as W.
  pose proof (hypot_pow2 (ell_a ell * cos p) (ell_b ell * sin p)) as W2.
  set (w := hypot _ _) in *. set (N := ell_a ell ^ 2 / w) in *.
  assert (A2 : 0 < ell_a ell ^ 2) by (apply pow_lt; lra). assert (B2 : 0 < ell_b ell ^ 2) by (apply pow_lt; lra).
  assert (E12 : 0 <= E < 1 / 2).
  { rewrite HE. split; [apply ecc_sq_range; lra|]. assert (1 / 2 < ell_b ell ^ 2 / ell_a ell ^ 2); [|lra].
    apply Rmult_lt_reg_r with (ell_a ell ^ 2); [lra|]. unfold Rdiv at 2. rewrite Rmult_assoc, Rinv_l by lra. lra. }
  assert (Hk : 0 <= alt / N) by (apply Rmult_le_pos; [lra|left; apply Rinv_0_lt_compat; lra]).
  rewrite ER, EZ. set (k := 1 - E + alt / N) in *. assert (K : 1 - E <= k) by (unfold k; lra).
  replace (((k + E) * N * cos p * cos l) ^ 2 + ((k + E) * N * cos p * sin l) ^ 2) with ((k + E) ^ 2 * N ^ 2 * cos p ^ 2).
  2: { pose proof (sc1 l) as S. transitivity ((k + E) ^ 2 * N ^ 2 * cos p ^ 2 * (sin l * sin l + cos l * cos l)); [rewrite S; ring|ring]. }
  assert (EN : N ^ 2 = ell_a ell ^ 2 / (cos p ^ 2 + (1 - E) * sin p ^ 2)).
  { assert (X : w ^ 2 = ell_a ell ^ 2 * (cos p ^ 2 + (1 - E) * sin p ^ 2)).
    { rewrite W2, HE. field. lra. }
    assert (0 < w ^ 2) by (apply pow_lt; lra).
    unfold N. transitivity (ell_a ell ^ 4 / w ^ 2); [field; lra|]. rewrite X. field. split; [|lra]. intros Z. rewrite Z in X. nra. }
  assert (Q : 0 < cos p ^ 2 + (1 - E) * sin p ^ 2).
  { pose proof (sin_pow2 p). pose proof (sq_nonneg (cos p)). pose proof (cos_le1 p). nra. }
  replace (_ / ell_a ell ^ 2 + _) with (((k + E) ^ 2 * cos p ^ 2 + (1 - E) * k ^ 2 * sin p ^ 2) / (cos p ^ 2 + (1 - E) * sin p ^ 2)).
  2: { replace (ell_b ell ^ 2 / ell_a ell ^ 4) with ((1 - E) / ell_a ell ^ 2) by (rewrite HE; field; lra).
       replace ((k * N * sin p) ^ 2) with (k ^ 2 * N ^ 2 * sin p ^ 2) by ring. rewrite EN. field. split; lra. }
  apply Rmult_lt_reg_r with (cos p ^ 2 + (1 - E) * sin p ^ 2); [exact Q|].
  unfold Rdiv. rewrite Rmult_assoc, Rinv_l by lra. rewrite Rmult_1_r.
  assert (K1 : 1 <= (k + E) ^ 2) by nra. assert (K2 : (1 - E) ^ 2 <= k ^ 2) by nra.
  assert (E2 : E ^ 2 < 1) by nra. assert (E3 : E ^ 2 < (1 - E) ^ 2) by nra.
  pose proof (sq_nonneg (cos p)). pose proof (sq_nonneg (sin p)).
  destruct (Req_dec (cos p ^ 2) 0) as [C|C].
  - pose proof (sin_pow2 p) as S. rewrite C in *. replace (sin p ^ 2) with 1 in * by lra. nra.
  - assert (0 < cos p ^ 2) by lra.
    assert (E ^ 2 * cos p ^ 2 < (k + E) ^ 2 * cos p ^ 2) by nra.
    assert (E ^ 2 * ((1 - E) * sin p ^ 2) <= k ^ 2 * ((1 - E) * sin p ^ 2)) by (apply Rmult_le_compat_r; [apply Rmult_le_pos; lra|lra]). lra.
Qed.

Example C55_hypotheses_met : ell_ok None /\ - quarter true <= 42 <= quarter true /\
  - (ell_b None ^ 2 / ell_a None) < 100 /\ ell_a None ^ 2 < 2 * ell_b None ^ 2 /\
  outside_core (ell_a None) (ell_b None) (geodetic2ecef 42 (-71) 100 None true).
Proof.
  assert (Q : ell_a None ^ 2 < 2 * ell_b None ^ 2) by (unfold ell_a, ell_b; lra).
  split; [exact I|]. split; [unfold quarter; lra|]. split; [unfold ell_a, ell_b; lra|]. split; [exact Q|].
  apply C55_positive_altitude_far; [exact I|exact Q|lra].
Qed.
