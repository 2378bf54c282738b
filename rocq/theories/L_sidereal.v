(** Lemmas about sidereal time and the azel/radec conversions. *)
From Coq Require Import Psatz.
From Coquelicot Require Import Rcomplements.
From Verif Require Import PyMath L_PyMath M_time M_earth M_sidereal Spec L_ell.
Open Scope R_scope.

Lemma mod360_trig x : sin (radians (py_mod (degrees x) 360)) = sin x /\ cos (radians (py_mod (degrees x) 360)) = cos x.
Proof.
  destruct (py_mod_congr (degrees x) 360 ltac:(lra)) as [k ->].
  replace (radians (degrees x + IZR k * 360)) with (x + IZR k * (2 * PI)).
  - split; [apply sin_period_Z|apply cos_period_Z].
  - unfold radians, degrees. field. apply PI_neq0.
Qed.
Lemma asin_deg_range x : -90 <= degrees (asin x) <= 90.
Proof.
  pose proof (asin_bound x) as B. pose proof PI_RGT_0 as P. unfold degrees.
  split; apply Rmult_le_reg_r with PI; try lra; unfold Rdiv; rewrite Rmult_assoc, Rinv_l by lra; lra.
Qed.
Lemma asin_radians_degrees x : radians (degrees x) = x.
Proof. unfold radians, degrees. field. apply PI_neq0. Qed.

(** Spherical triangle: direction of latitude/longitude (p, l) seen from
    latitude f: up component D, and the remaining two after division. *)
Lemma tri_id sh ch sf cf sa ca : sh*sh+ch*ch = 1 -> sf*sf+cf*cf = 1 -> sa*sa+ca*ca = 1 ->
  (sh * sf + ch * cf * ca) * (sh * sf + ch * cf * ca) + (sa * ch) * (sa * ch)
  + (sh * cf - ch * sf * ca) * (sh * cf - ch * sf * ca) = 1.
Proof.
  intros H1 H2 H3.
  replace (_ + _ + _) with (sh*sh*(sf*sf+cf*cf) + ch*ch*(ca*ca*(sf*sf+cf*cf) + sa*sa)) by ring.
  rewrite H2. replace (ca*ca*1+sa*sa) with 1 by lra. lra.
Qed.
Section Triangle.
Variables f a h : R. (* latitude, azimuth, altitude of the direction *)
Let D := sin h * sin f + cos h * cos f * cos a.
Lemma D_range : -1 <= D <= 1.
Proof.
  assert (H : D * D <= 1).
  { unfold D. pose proof (sin2_cos2 h) as H1. pose proof (sin2_cos2 f) as H2. pose proof (sin2_cos2 a) as H3. unfold Rsqr in *.
    set (sh := sin h) in *. set (ch := cos h) in *. set (sf := sin f) in *. set (cf := cos f) in *. set (ca := cos a) in *. set (sa := sin a) in *.
    pose proof (tri_id sh ch sf cf sa ca H1 H2 H3).
    pose proof (Rle_0_sqr (sa * ch)). pose proof (Rle_0_sqr (sh * cf - ch * sf * ca)). unfold Rsqr in *. lra. }
  split; nra.
Qed.
Hypothesis Hf : 0 < cos f.
Hypothesis HD : -1 < D < 1.
Lemma triangle_solved : 
  let d := asin D in
  let l := atan2 (- (sin a * cos h) / cos d) ((sin h - sin f * sin d) / (cos d * cos f)) in
  sin d = D /\ 0 < cos d /\ cos d * sin l = - (sin a * cos h) /\ cos d * cos l = sin h * cos f - cos h * sin f * cos a.
Proof.
  intros d l. assert (Sd : sin d = D) by (apply sin_asin; lra).
  assert (Cd : 0 < cos d).
  { unfold d. rewrite cos_asin by lra. apply sqrt_lt_R0. unfold Rsqr. nra. }
  assert (C2 : cos d * cos d = 1 - D * D) by (pose proof (sin2_cos2 d) as Q; unfold Rsqr in Q; rewrite Sd in Q; lra).
  set (A := sin h * cos f - cos h * sin f * cos a).
  assert (EA : (sin h - sin f * sin d) / (cos d * cos f) = A / cos d).
  { rewrite Sd. unfold D, A. pose proof (sin2_cos2 f) as Q. unfold Rsqr in Q.
    replace (sin h - sin f * (sin h * sin f + cos h * cos f * cos a)) with (cos f * (sin h * cos f - cos h * sin f * cos a)).
    - field. lra.
    - replace (sin h) with (sin h * (sin f * sin f + cos f * cos f)) at 2 by (rewrite Q; ring). ring. }
  set (B := - (sin a * cos h)).
  assert (N : A * A + B * B = cos d * cos d).
  { rewrite C2. unfold A, B, D. pose proof (sin2_cos2 h) as H1. pose proof (sin2_cos2 f) as H2. pose proof (sin2_cos2 a) as H3. unfold Rsqr in *.
    pose proof (tri_id _ _ _ _ _ _ H1 H2 H3). lra. }
  assert (Hy : hypot (A / cos d) (B / cos d) = 1).
  { unfold hypot. replace ((A / cos d) ^ 2 + (B / cos d) ^ 2) with ((A * A + B * B) / (cos d * cos d)) by (field; lra).
    rewrite N. replace (cos d * cos d / (cos d * cos d)) with 1 by (field; lra). apply sqrt_1. }
  unfold l. rewrite EA. fold B.
  pose proof (hypot_cos_atan2 (B / cos d) (A / cos d)) as HC. pose proof (hypot_sin_atan2 (B / cos d) (A / cos d)) as HS.
  rewrite Hy in HC, HS. rewrite Rmult_1_l in HC, HS. rewrite HC, HS.
  repeat split; try assumption; field; lra.
Qed.
End Triangle.

(** GMST polynomial: rate near J2000. *)
Lemma gmst_rate j1 j2 : Rabs (j1 - 2451545) <= 36525 -> Rabs (j2 - 2451545) <= 36525 ->
  exists k : Z, exists err : R, Rabs err <= 0.000006 * Rabs (j2 - j1) /\
  greenwich_mean_sidereal_time j2 - greenwich_mean_sidereal_time j1
  = 2 * PI * (1.0027379093507955 * (j2 - j1) + err / 86400) + IZR k * (2 * PI).
Proof.
  intros H1 H2. unfold greenwich_mean_sidereal_time, julian_centuries.
  replace ((j1 - 2451545.0) / 36525.0) with ((j1 - 2451545) / 36525) by lra.
  replace ((j2 - 2451545.0) / 36525.0) with ((j2 - 2451545) / 36525) by lra.
  set (T1 := (j1 - 2451545) / 36525). set (T2 := (j2 - 2451545) / 36525).
  destruct (py_mod_congr ((67310.54841 + (876600 * 3600 + 8640184.812866) * T2 + 0.093104 * T2 ^ 2 - 0.0000062 * T2 ^ 3) * tau / 86400.0) tau tau_pos) as [k2 ->].
  destruct (py_mod_congr ((67310.54841 + (876600 * 3600 + 8640184.812866) * T1 + 0.093104 * T1 ^ 2 - 0.0000062 * T1 ^ 3) * tau / 86400.0) tau tau_pos) as [k1 ->].
  exists (k2 - k1)%Z.
  exists (((876600 * 3600 + 8640184.812866) - 36525 * 86400 * 1.0027379093507955) * (T2 - T1)
     + (0.093104 * (T1 + T2) - 0.0000062 * (T1 ^ 2 + T1 * T2 + T2 ^ 2)) * (T2 - T1)).
  assert (B1 : Rabs T1 <= 1).
  { unfold T1. rewrite Rabs_div by lra. rewrite (Rabs_right 36525) by lra.
    apply Rmult_le_reg_r with 36525; [lra|]. unfold Rdiv. rewrite Rmult_assoc, Rinv_l by lra. lra. }
  assert (B2 : Rabs T2 <= 1).
  { unfold T2. rewrite Rabs_div by lra. rewrite (Rabs_right 36525) by lra.
    apply Rmult_le_reg_r with 36525; [lra|]. unfold Rdiv. rewrite Rmult_assoc, Rinv_l by lra. lra. }
  assert (E : j2 - j1 = 36525 * (T2 - T1)) by (unfold T1, T2; lra).
  apply Rabs_le_between in B1. apply Rabs_le_between in B2.
  split.
  - rewrite E. rewrite <- Rmult_plus_distr_r, !Rabs_mult. rewrite (Rabs_right 36525) by lra.
    rewrite <- Rmult_assoc. apply Rmult_le_compat_r; [apply Rabs_pos|]. apply Rabs_le.
    assert (0 <= T1 ^ 2 <= 1) by nra. assert (0 <= T2 ^ 2 <= 1) by nra. assert (-1 <= T1 * T2 <= 1) by nra. split; lra.
  - rewrite E. rewrite minus_IZR. unfold tau. lra.
Qed.
