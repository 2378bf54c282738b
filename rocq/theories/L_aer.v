(** Lemmas on azimuth/elevation/range. *)
From Coq Require Import Lia Psatz.
From Verif Require Import PyMath L_PyMath M_ellipsoid M_ecef M_frames M_enu M_aer M_ned M_nwu M_sez
  M_body M_dca Spec L_ell L_frames.
Open Scope R_scope.

Lemma deg_out_lt d x y : x < y -> deg_out d x < deg_out d y.
Proof. destruct d; [apply degrees_lt|trivial]. Qed.
Lemma deg_out_le d x y : x <= y -> deg_out d x <= deg_out d y.
Proof. destruct d; [apply degrees_le|trivial]. Qed.
Lemma deg_out_0 d : deg_out d 0 = 0.
Proof. destruct d; [apply degrees_0|reflexivity]. Qed.
Lemma deg_out_quarter d : deg_out d (PI/2) = quarter d.
Proof. destruct d; [apply degrees_PI2|reflexivity]. Qed.
Lemma deg_out_mquarter d : deg_out d (- PI/2) = - quarter d.
Proof. destruct d; cbn; [|lra]. replace (-PI/2) with (-(PI/2)) by lra. rewrite degrees_opp, degrees_PI2. reflexivity. Qed.
Lemma deg_out_half d : deg_out d PI = half d.
Proof. destruct d; [apply degrees_PI|reflexivity]. Qed.
Lemma deg_out_full d : deg_out d tau = full d.
Proof. destruct d; [apply degrees_tau|reflexivity]. Qed.
Lemma rad_in_lt d x y : x < y -> rad_in d x < rad_in d y.
Proof. destruct d; [apply radians_lt|trivial]. Qed.
Lemma rad_in_le d x y : x <= y -> rad_in d x <= rad_in d y.
Proof. destruct d; [apply radians_le|trivial]. Qed.
Lemma rad_in_quarter d : rad_in d (quarter d) = PI/2.
Proof. destruct d; [apply radians_90|reflexivity]. Qed.
Lemma rad_in_mquarter d : rad_in d (- quarter d) = - PI/2.
Proof. destruct d; cbn; [rewrite radians_opp, radians_90; lra|lra]. Qed.
Lemma rad_in_full d : rad_in d (full d) = tau.
Proof. destruct d; [apply radians_360|reflexivity]. Qed.
Lemma rad_in_0 d : rad_in d 0 = 0.
Proof. destruct d; [apply radians_0|reflexivity]. Qed.
Lemma rad_in_opp d x : rad_in d (-x) = - rad_in d x.
Proof. destruct d; [apply radians_opp|reflexivity]. Qed.
Lemma deg_out_opp d x : deg_out d (-x) = - deg_out d x.
Proof. destruct d; [apply degrees_opp|reflexivity]. Qed.

Lemma enu2aer_ranges e n u deg :
  let '(az, el, r) := enu2aer e n u deg in
  0 <= az < full deg /\ - quarter deg <= el <= quarter deg /\ 0 <= r.
Proof.
  unfold enu2aer. repeat split.
  - rewrite <- (deg_out_0 deg). apply deg_out_le, py_mod_range, tau_pos.
  - rewrite <- (deg_out_full deg). apply deg_out_lt, py_mod_range, tau_pos.
  - rewrite <- deg_out_mquarter. apply deg_out_le. apply atan2_right, hypot_nonneg.
  - rewrite <- deg_out_quarter. apply deg_out_le. apply atan2_right, hypot_nonneg.
  - apply hypot_nonneg.
Qed.

Lemma trim_not_tiny x : not_tiny x -> zero_trim x = x.
Proof.
  unfold not_tiny, zero_trim. destruct (Rlt_dec (Rabs x) (1/1000)); intros [->|H]; lra.
Qed.
Lemma trim_close x : Rabs (x - zero_trim x) < 1/1000.
Proof.
  unfold zero_trim. destruct (Rlt_dec (Rabs x) (1/1000)).
  - now rewrite Rminus_0_r.
  - rewrite Rminus_diag_eq, Rabs_R0 by reflexivity. lra.
Qed.
Lemma trim_trim x : zero_trim (zero_trim x) = zero_trim x.
Proof.
  apply trim_not_tiny. unfold not_tiny, zero_trim.
  destruct (Rlt_dec (Rabs x) (1/1000)); [now left|right; lra].
Qed.

Lemma aer2enu_enu2aer_trim e n u deg :
  let '(az, el, r) := enu2aer e n u deg in
  aer2enu az el r deg = (zero_trim e, zero_trim n, zero_trim u).
Proof.
  unfold enu2aer, aer2enu. rewrite !rad_in_deg_out.
  set (e' := zero_trim e). set (n' := zero_trim n). set (u' := zero_trim u).
  rewrite sin_py_mod, cos_py_mod, hypot_cos_atan2, hypot_sin_atan2.
  rewrite (hypot_comm e' n'), hypot_sin_atan2, hypot_cos_atan2. reflexivity.
Qed.
Lemma enu2aer_aer2enu az el r deg :
  0 < r -> 0 <= az < full deg -> - quarter deg < el < quarter deg ->
  not_tiny3 (aer2enu az el r deg) ->
  let '(e, n, u) := aer2enu az el r deg in enu2aer e n u deg = (az, el, r).
Proof.
  intros Hr Haz Hel Hnt. unfold aer2enu in *. cbn in Hnt. destruct Hnt as (T1 & T2 & T3).
  unfold enu2aer. rewrite !trim_not_tiny by assumption.
  set (A := rad_in deg az) in *. set (E := rad_in deg el) in *.
  assert (HA : 0 <= A < tau).
  { subst A. rewrite <- (rad_in_full deg), <- (rad_in_0 deg). split.
    - apply rad_in_le; lra.
    - apply rad_in_lt; lra. }
  assert (HE : - PI/2 < E < PI/2).
  { subst E. rewrite <- (rad_in_mquarter deg), <- (rad_in_quarter deg).
    split; apply rad_in_lt; lra. }
  assert (Hc : 0 < cos E) by (apply cos_gt_0; lra).
  assert (Hrc : 0 < r * cos E) by now apply Rmult_lt_0_compat.
  rewrite (hypot_comm (r * cos E * sin A)), hypot_polar by lra.
  rewrite hypot_polar by lra. rewrite (atan2_polar r E) by (pose proof PI_RGT_0; lra).
  rewrite py_mod_atan2 by assumption.
  subst A E. now rewrite !deg_out_rad_in.
Qed.

Lemma enu2aer_range_val e n u deg :
  let '(_, _, r) := enu2aer e n u deg in
  r = vnorm (zero_trim e, zero_trim n, zero_trim u).
Proof.
  unfold enu2aer, vnorm, vdot. apply hypot_uniq; [apply sqrt_pos|].
  rewrite sqrt_sqrt by nra. rewrite hypot_pow2. ring.
Qed.

(** Euclidean norm facts *)
Lemma vdot_self_nonneg v : 0 <= vdot v v.
Proof. destruct v as [[x y] z]. unfold vdot. nra. Qed.
Lemma vnorm_nonneg v : 0 <= vnorm v. Proof. apply sqrt_pos. Qed.
Lemma vnorm_sq v : vnorm v * vnorm v = vdot v v.
Proof. apply sqrt_sqrt, vdot_self_nonneg. Qed.
Lemma vcauchy p q : vdot p q <= vnorm p * vnorm q.
Proof.
  destruct (Rle_dec (vdot p q) 0) as [H|H].
  - pose proof (vnorm_nonneg p); pose proof (vnorm_nonneg q). nra.
  - apply Rsqr_incr_0_var.
    + unfold Rsqr. replace (vnorm p * vnorm q * (vnorm p * vnorm q))
        with ((vnorm p*vnorm p)*(vnorm q*vnorm q)) by ring.
      rewrite !vnorm_sq. destruct p as [[a b] c], q as [[d e] f]. unfold vdot.
      pose proof (Rle_0_sqr (a*e-b*d)) as Q1. pose proof (Rle_0_sqr (a*f-c*d)) as Q2.
      pose proof (Rle_0_sqr (b*f-c*e)) as Q3. unfold Rsqr in *. lra.
    + apply Rmult_le_pos; apply vnorm_nonneg.
Qed.
Lemma vnorm_triangle p q : vnorm (vadd p q) <= vnorm p + vnorm q.
Proof.
  apply Rsqr_incr_0_var.
  - unfold Rsqr. rewrite vnorm_sq. pose proof (vcauchy p q).
    pose proof (vnorm_sq p); pose proof (vnorm_sq q).
    replace (vdot (vadd p q) (vadd p q)) with (vdot p p + 2 * vdot p q + vdot q q).
    + nra.
    + destruct p as [[a b] c], q as [[d e] f]. unfold vdot, vadd. ring.
  - pose proof (vnorm_nonneg p); pose proof (vnorm_nonneg q). lra.
Qed.
Lemma vnorm_diff p q : Rabs (vnorm p - vnorm q) <= vdist3 p q.
Proof.
  unfold vdist3. apply Rabs_le. split.
  - pose proof (vnorm_triangle p (vsub q p)).
    replace (vadd p (vsub q p)) with q in H.
    + replace (vnorm (vsub q p)) with (vnorm (vsub p q)) in H; [lra|].
      unfold vnorm. f_equal. destruct p as [[a b] c], q as [[d e] f]. unfold vdot, vsub. ring.
    + destruct p as [[a b] c], q as [[d e] f]. unfold vadd, vsub. apply pair3_eq; ring.
  - pose proof (vnorm_triangle q (vsub p q)).
    replace (vadd q (vsub p q)) with p in H; [lra|].
    destruct p as [[a b] c], q as [[d e] f]. unfold vadd, vsub. apply pair3_eq; ring.
Qed.
Lemma vdist3_sym p q : vdist3 p q = vdist3 q p.
Proof.
  unfold vdist3, vnorm. f_equal. destruct p as [[a b] c], q as [[d e] f]. unfold vdot, vsub. ring.
Qed.
Lemma within_dist eps p q : 0 < eps -> within eps p q -> vdist3 p q < sqrt 3 * eps.
Proof.
  intros He. destruct p as [[a b] c], q as [[d e] f]. unfold within, vdist3, vnorm, vsub, vdot.
  intros (H1 & H2 & H3).
  replace (sqrt 3 * eps) with (sqrt (3 * (eps*eps))).
  - apply sqrt_lt_1_alt. apply Rabs_def2 in H1, H2, H3.
    split; [pose proof (Rle_0_sqr (a-d)); pose proof (Rle_0_sqr (b-e)); pose proof (Rle_0_sqr (c-f));
            unfold Rsqr in *; lra|].
    assert ((a-d)*(a-d) < eps*eps) by nra. assert ((b-e)*(b-e) < eps*eps) by nra.
    assert ((c-f)*(c-f) < eps*eps) by nra. lra.
  - rewrite sqrt_mult by nra. now rewrite sqrt_square by lra.
Qed.
Lemma within_trim e n u : within (1/1000) (zero_trim e, zero_trim n, zero_trim u) (e, n, u).
Proof. cbn. repeat split; rewrite Rabs_minus_sym; apply trim_close. Qed.

Lemma ecef2enu_norm x y z lat0 lon0 h0 ell deg :
  vnorm (ecef2enu x y z lat0 lon0 h0 ell deg)
  = vdist3 (x, y, z) (geodetic2ecef lat0 lon0 h0 ell deg).
Proof.
  unfold ecef2enu. destruct (geodetic2ecef lat0 lon0 h0 ell deg) as [[x0 y0] z0].
  unfold vdist3, vnorm. f_equal. rewrite uvw2enu_dot. reflexivity.
Qed.

Lemma ecef2aer_range x y z lat0 lon0 h0 ell deg :
  let '(_, _, r) := ecef2aer x y z lat0 lon0 h0 ell deg in
  let d := vdist3 (x, y, z) (geodetic2ecef lat0 lon0 h0 ell deg) in
  Rabs (r - d) < sqrt 3 / 1000 /\
  (not_tiny3 (ecef2enu x y z lat0 lon0 h0 ell deg) -> r = d).
Proof.
  unfold ecef2aer. rewrite <- ecef2enu_norm.
  destruct (ecef2enu x y z lat0 lon0 h0 ell deg) as [[e n] u].
  pose proof (enu2aer_range_val e n u deg) as H.
  destruct (enu2aer e n u deg) as [[az el] r]. subst r. cbv zeta. split.
  - eapply Rle_lt_trans; [apply vnorm_diff|].
    replace (sqrt 3 / 1000) with (sqrt 3 * (1/1000)) by lra.
    apply within_dist; [lra|apply within_trim].
  - intros (H1 & H2 & H3). now rewrite !trim_not_tiny.
Qed.
Lemma geodetic2aer_ecef2aer lat lon h lat0 lon0 h0 ell deg :
  geodetic2aer lat lon h lat0 lon0 h0 ell deg
  = let '(x, y, z) := geodetic2ecef lat lon h ell deg in ecef2aer x y z lat0 lon0 h0 ell deg.
Proof.
  unfold geodetic2aer. rewrite geodetic2enu_ecef2enu. unfold ecef2aer.
  destruct (geodetic2ecef lat lon h ell deg) as [[x y] z]. reflexivity.
Qed.
Lemma geodetic2aer_range lat lon h lat0 lon0 h0 ell deg :
  let '(_, _, r) := geodetic2aer lat lon h lat0 lon0 h0 ell deg in
  let d := vdist3 (geodetic2ecef lat lon h ell deg) (geodetic2ecef lat0 lon0 h0 ell deg) in
  Rabs (r - d) < sqrt 3 / 1000 /\
  (not_tiny3 (geodetic2enu lat lon h lat0 lon0 h0 ell deg) -> r = d).
Proof.
  rewrite geodetic2aer_ecef2aer, geodetic2enu_ecef2enu.
  destruct (geodetic2ecef lat lon h ell deg) as [[x y] z]. apply ecef2aer_range.
Qed.
Lemma range_symmetric lat1 lon1 h1 lat2 lon2 h2 ell deg :
  let '(_, _, r12) := geodetic2aer lat2 lon2 h2 lat1 lon1 h1 ell deg in
  let '(_, _, r21) := geodetic2aer lat1 lon1 h1 lat2 lon2 h2 ell deg in
  Rabs (r12 - r21) < 2 * sqrt 3 / 1000 /\
  (not_tiny3 (geodetic2enu lat2 lon2 h2 lat1 lon1 h1 ell deg) ->
   not_tiny3 (geodetic2enu lat1 lon1 h1 lat2 lon2 h2 ell deg) -> r12 = r21).
Proof.
  pose proof (geodetic2aer_range lat2 lon2 h2 lat1 lon1 h1 ell deg) as A.
  pose proof (geodetic2aer_range lat1 lon1 h1 lat2 lon2 h2 ell deg) as B.
  destruct (geodetic2aer lat2 lon2 h2 lat1 lon1 h1 ell deg) as [[? ?] r12].
  destruct (geodetic2aer lat1 lon1 h1 lat2 lon2 h2 ell deg) as [[? ?] r21].
  cbv zeta in A, B. rewrite vdist3_sym in B. destruct A as [A1 A2], B as [B1 B2]. split.
  - apply Rabs_def2 in A1, B1. apply Rabs_def1; lra.
  - intros H1 H2. now rewrite A2, B2.
Qed.

Lemma aer2ecef_enu2ecef az el r lat0 lon0 h0 ell deg :
  aer2ecef az el r lat0 lon0 h0 ell deg
  = let '(e, n, u) := aer2enu az el r deg in enu2ecef e n u lat0 lon0 h0 ell deg.
Proof.
  unfold aer2ecef, enu2ecef. destruct (geodetic2ecef lat0 lon0 h0 ell deg) as [[x0 y0] z0].
  destruct (aer2enu az el r deg) as [[e n] u]. reflexivity.
Qed.
Lemma ecef2aer_aer2ecef az el r lat0 lon0 h0 ell deg :
  0 < r -> 0 <= az < full deg -> - quarter deg < el < quarter deg ->
  not_tiny3 (aer2enu az el r deg) ->
  let '(x, y, z) := aer2ecef az el r lat0 lon0 h0 ell deg in
  ecef2aer x y z lat0 lon0 h0 ell deg = (az, el, r).
Proof.
  intros H1 H2 H3 H4. rewrite aer2ecef_enu2ecef.
  pose proof (enu2aer_aer2enu az el r deg H1 H2 H3 H4) as K.
  destruct (aer2enu az el r deg) as [[e n] u]. unfold ecef2aer.
  pose proof (enu_ecef_enu e n u lat0 lon0 h0 ell deg) as J.
  destruct (enu2ecef e n u lat0 lon0 h0 ell deg) as [[x y] z]. now rewrite J.
Qed.
Lemma aer2ecef_ecef2aer x y z lat0 lon0 h0 ell deg :
  let '(az, el, r) := ecef2aer x y z lat0 lon0 h0 ell deg in
  vdist3 (aer2ecef az el r lat0 lon0 h0 ell deg) (x, y, z) < sqrt 3 / 1000 /\
  (not_tiny3 (ecef2enu x y z lat0 lon0 h0 ell deg) ->
   aer2ecef az el r lat0 lon0 h0 ell deg = (x, y, z)).
Proof.
  pose proof (ecef_enu_ecef x y z lat0 lon0 h0 ell deg) as J.
  unfold ecef2aer. destruct (ecef2enu x y z lat0 lon0 h0 ell deg) as [[e n] u] eqn:En.
  pose proof (aer2enu_enu2aer_trim e n u deg) as K.
  destruct (enu2aer e n u deg) as [[az el] r]. rewrite aer2ecef_enu2ecef, K. split.
  - pose proof (ecef2enu_dist) as D.
    pose proof (enu_ecef_enu (zero_trim e) (zero_trim n) (zero_trim u) lat0 lon0 h0 ell deg) as L.
    destruct (enu2ecef (zero_trim e) (zero_trim n) (zero_trim u) lat0 lon0 h0 ell deg) as [[x' y'] z'].
    rewrite <- (D x' y' z' x y z lat0 lon0 h0 ell deg), L, En.
    replace (sqrt 3 / 1000) with (sqrt 3 * (1/1000)) by lra.
    apply within_dist; [lra|apply within_trim].
  - intros (H1 & H2 & H3). rewrite !trim_not_tiny by assumption. exact J.
Qed.
