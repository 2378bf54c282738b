(** Ranges and symmetries of ecef2geodetic. *)
From Coq Require Import Lia Psatz.
From Verif Require Import PyMath L_PyMath M_ellipsoid M_ecef Spec L_ell L_ecef L_ecef2geo L_ecefrt L_ecefsurj.
Open Scope R_scope.

Lemma quarter_out_le deg p : - PI/2 <= p <= PI/2 -> - quarter deg <= deg_out deg p <= quarter deg.
Proof.
  intros H. destruct deg; unfold quarter, deg_out; [|lra].
  rewrite <- degrees_PI2, <- degrees_opp. split; apply degrees_le; lra.
Qed.

Lemma e2g_ranges x y z ell deg : ell_ok ell ->
  let '(lat, lon, alt) := ecef2geodetic x y z ell deg in
  - quarter deg <= lat <= quarter deg /\ - half deg < lon <= half deg /\
  (alt < 0 <->
   x ^ 2 / ell_a ell ^ 2 + y ^ 2 / ell_a ell ^ 2 + z ^ 2 / ell_b ell ^ 2 < 1).
Proof.
  intros Hok. unfold ecef2geodetic. cbv zeta.
  pose proof (resolve_valid ell Hok) as He.
  set (B := beta_scalar _ x y z).
  split; [apply quarter_out_le, lat_scalar_range|].
  split; [apply half_out, atan2_range|].
  rewrite <- resolve_a, <- resolve_b. split; intros H.
  - apply Rnot_le_lt. intros Hge.
    pose proof (alt_outside (resolve_ellipsoid ell) x y z B (cos B) Hge). lra.
  - apply (alt_inside (resolve_ellipsoid ell) He x y z B (cos B)); [|exact H].
    pose proof (sin_pow2 B). lra.
Qed.

Lemma e2g_lane_ranges x y z ell deg : ell_ok ell ->
  let '(lat, lon, alt) := ecef2geodetic_lane x y z ell deg in
  - quarter deg <= lat <= quarter deg /\ - half deg < lon <= half deg /\
  (alt < 0 <->
   x ^ 2 / ell_a ell ^ 2 + y ^ 2 / ell_a ell ^ 2 + z ^ 2 / ell_b ell ^ 2 < 1).
Proof.
  intros Hok. unfold ecef2geodetic_lane. cbv zeta.
  pose proof (resolve_valid ell Hok) as He.
  pose proof PI_RGT_0 as HPI.
  set (B := beta_numpy _ x y z).
  set (c := if Rle_dec B (- (PI / 2 - eps64)) then 0 else _).
  split; [|split; [apply half_out, atan2_range|]].
  - apply quarter_out_le. destruct (Rle_dec B _); [lra|].
    destruct (Rle_dec _ B); [lra|]. apply lat_scalar_range.
  - rewrite <- resolve_a, <- resolve_b. split; intros H.
    + apply Rnot_le_lt. intros Hge.
      pose proof (alt_outside (resolve_ellipsoid ell) x y z B c Hge). lra.
    + assert (Hcase : c = cos B \/ c = 0).
      { unfold c. destruct (Rle_dec B _); [now right|]. destruct (Rle_dec _ B); [now right|now left]. }
      destruct Hcase as [Hc|Hc].
      * apply (alt_inside (resolve_ellipsoid ell) He x y z B c); [|exact H].
        rewrite Hc. pose proof (sin_pow2 B). lra.
      * (* cosine patched to 0 *)
        assert (Hnz : hypot x y <> 0 \/ c = cos B \/ (hypot x y = 0)) by tauto.
        destruct (Req_dec (hypot x y) 0) as [Hh|Hh].
        -- (* on the axis: B is 0 or +-pi/2 *)
           destruct (Req_dec (cos B) 0) as [HcB|HcB].
           ++ apply (alt_inside (resolve_ellipsoid ell) He x y z B c); [|exact H].
              rewrite Hc. pose proof (sin_pow2 B). rewrite HcB in H0. lra.
           ++ exfalso. (* then B = 0, which is not within eps of pi/2 *)
              assert (HB : B = 0 \/ B = PI/2 \/ B = - PI/2).
              { unfold B, beta_numpy. rewrite Hh, isclose0_0, orb_true_r.
                destruct (isclose0 z); [tauto|]. destruct (Rlt_dec 0 z); tauto. }
              destruct HB as [HB|[HB|HB]].
              ** unfold c in Hc. rewrite HB in Hc.
                 assert (Heps : 0 < eps64 < 1).
                 { unfold eps64. split; [apply Rinv_0_lt_compat, pow_lt; lra|].
                   rewrite <- Rinv_1. apply Rinv_lt_contravar; [|apply Rlt_pow_R1; [lra|lia]].
                   rewrite Rmult_1_l. apply pow_lt. lra. }
                 pose proof PI2_1 as H2.
                 destruct (Rle_dec 0 (- (PI / 2 - eps64))); [lra|].
                 destruct (Rle_dec (PI / 2 - eps64) 0); [lra|]. rewrite cos_0 in Hc. lra.
              ** rewrite HB, cos_PI2 in HcB. lra.
              ** rewrite HB in HcB. replace (- PI / 2) with (- (PI/2)) in HcB by lra.
                 rewrite cos_neg, cos_PI2 in HcB. lra.
        -- unfold alt_of_beta, inside_dec. destruct (Rlt_dec _ 1); [|lra].
           rewrite Hc. enough (0 < hypot (z - semiminor_axis (resolve_ellipsoid ell) * sin B)
             (hypot x y - semimajor_axis (resolve_ellipsoid ell) * 0)) by lra.
           apply hypot_pos. right. rewrite Rmult_0_r, Rminus_0_r. exact Hh.
Qed.

(** Rotating (x, y) by theta. *)
Lemma e2g_rotation x y z ell deg theta :
  let x' := x * cos theta - y * sin theta in
  let y' := x * sin theta + y * cos theta in
  let '(lat, lon, alt) := ecef2geodetic x y z ell deg in
  let '(lat', lon', alt') := ecef2geodetic x' y' z ell deg in
  lat' = lat /\ alt' = alt /\
  (x <> 0 \/ y <> 0 -> exists k, as_rad deg lon' = as_rad deg lon + theta + IZR k * (2 * PI)).
Proof.
  cbv zeta.
  assert (H2 : (x * cos theta - y * sin theta) ^ 2 + (x * sin theta + y * cos theta) ^ 2
               = x ^ 2 + y ^ 2) by tring1 theta.
  set (x' := x * cos theta - y * sin theta) in *.
  set (y' := x * sin theta + y * cos theta) in *.
  unfold ecef2geodetic. cbv zeta.
  rewrite (beta_scalar_rot _ x' y' x y z H2).
  split; [reflexivity|]. split; [apply alt_rot; exact H2|].
  intros Hxy. rewrite !as_rad_deg_out.
  pose proof (hypot_pos x y Hxy) as HR.
  assert (HR' : hypot x' y' = hypot x y) by (now apply hypot_rot).
  pose proof (hypot_cos_atan2 y x) as C. pose proof (hypot_sin_atan2 y x) as S.
  pose proof (hypot_cos_atan2 y' x') as C'. pose proof (hypot_sin_atan2 y' x') as S'.
  rewrite HR' in C', S'.
  set (l := atan2 y x) in *. set (l' := atan2 y' x') in *. set (r := hypot x y) in *.
  assert (Hcos : cos l' = cos (l + theta)).
  { apply Rmult_eq_reg_l with r; [|lra]. rewrite C', cos_plus. unfold x'. rewrite <- C, <- S. ring. }
  assert (Hsin : sin l' = sin (l + theta)).
  { apply Rmult_eq_reg_l with r; [|lra]. rewrite S', sin_plus. unfold y'. rewrite <- C, <- S. ring. }
  destruct (py_mod_congr (l + theta - l') tau tau_pos) as [k Hk].
  assert (Hz : py_mod (l + theta - l') tau = 0).
  { apply cos_eq_1_range.
    - pose proof (py_mod_range (l + theta - l') tau tau_pos). unfold tau in *. lra.
    - rewrite cos_py_mod, cos_minus, Hcos, Hsin. pose proof (sc1 (l + theta)). lra. }
  exists k. unfold tau in *. lra.
Qed.

Lemma e2g_mirror x y z ell deg :
  let '(lat, lon, alt) := ecef2geodetic x y z ell deg in
  ecef2geodetic x y (- z) ell deg = (- lat, lon, alt).
Proof.
  unfold ecef2geodetic. cbv zeta.
  rewrite beta_scalar_mirror, lat_scalar_mirror, cos_neg, alt_mirror.
  f_equal. f_equal. destruct deg; [apply degrees_opp|reflexivity].
Qed.
