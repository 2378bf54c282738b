(** Surjectivity of geodetic2ecef; You's closed form is not exact. *)
From Coq Require Import Lia Psatz Ranalysis.
From Verif Require Import PyMath L_PyMath M_ellipsoid M_ecef Spec L_ell L_ecef L_ecef2geo L_ecefrt.
Open Scope R_scope.

Section S.
Variables a b : R.
Hypothesis Hb : 0 < b.
Hypothesis Ha : b <= a.

(** Condition for beta to be the reduced latitude of the foot point of (R,z). *)
Definition foot (r z t : R) : R :=
  a * r * sin t - b * z * cos t - (a ^ 2 - b ^ 2) * (sin t * cos t).

Lemma foot_cont r z : continuity (foot r z).
Proof. unfold foot. reg. Qed.

(** (b cos t, a sin t) normalised is (cos lat, sin lat) for lat = atan (a/b tan t). *)
Lemma geod_of_reduced t : 0 < cos t ->
  let g := hypot (b * cos t) (a * sin t) in
  let lat := atan (a / b * tan t) in
  0 < g /\ cos lat = b * cos t / g /\ sin lat = a * sin t / g /\
  hypot (a * cos lat) (b * sin lat) = a * b / g.
Proof.
  intros Hc g lat.
  assert (Hbc : 0 < b * cos t) by nra.
  assert (Hg : 0 < g) by (apply hypot_pos; lra).
  assert (Hq : a / b * tan t = a * sin t / (b * cos t)).
  { unfold tan. field. split; lra. }
  pose proof (hypot_cos_atan (a * sin t) (b * cos t) Hbc) as H1.
  pose proof (hypot_sin_atan (a * sin t) (b * cos t) Hbc) as H2.
  fold g in H1, H2. rewrite <- Hq in H1, H2. fold lat in H1, H2.
  assert (C1 : cos lat = b * cos t / g) by (rewrite <- H1; field; lra).
  assert (C2 : sin lat = a * sin t / g) by (rewrite <- H2; field; lra).
  repeat split; try assumption.
  rewrite C1, C2. apply hypot_uniq.
  - apply Rmult_le_pos; [nra|]. left. now apply Rinv_0_lt_compat.
  - transitivity ((a * b / g) ^ 2 * (sin t * sin t + cos t * cos t)).
    + rewrite sc1. ring.
    + field. lra.
Qed.

(** Given a root of [foot], the height that makes geodetic2ecef hit (r,z). *)
Lemma foot_gives_geodetic r z t : 0 < cos t -> foot r z t = 0 ->
  let g := hypot (b * cos t) (a * sin t) in
  let lat := atan (a / b * tan t) in
  let w := hypot (a * cos lat) (b * sin lat) in
  let h := (r / cos t - a) * g / b in
  (a ^ 2 / w + h) * cos lat = r /\ (b ^ 2 / w + h) * sin lat = z.
Proof.
  intros Hc Hf. cbv zeta. destruct (geod_of_reduced t Hc) as (Hg & C1 & C2 & Hw).
  cbv zeta in *. rewrite Hw, C1, C2. set (g := hypot (b * cos t) (a * sin t)) in *.
  unfold foot in Hf. split.
  - field. repeat split; lra.
  - apply Rmult_eq_reg_r with (b * cos t); [|nra].
    transitivity (a * r * sin t - (a ^ 2 - b ^ 2) * (sin t * cos t)).
    + field. repeat split; lra.
    + lra.
Qed.

(** Conversely *)
Lemma geodetic_gives_foot r z t h : 0 < cos t ->
  let lat := atan (a / b * tan t) in
  let w := hypot (a * cos lat) (b * sin lat) in
  (a ^ 2 / w + h) * cos lat = r -> (b ^ 2 / w + h) * sin lat = z ->
  foot r z t = 0.
Proof.
  intros Hc. cbv zeta. destruct (geod_of_reduced t Hc) as (Hg & C1 & C2 & Hw).
  cbv zeta in *. rewrite Hw, C1, C2. set (g := hypot (b * cos t) (a * sin t)) in *.
  intros <- <-. unfold foot. field. repeat split; lra.
Qed.

Lemma foot_root r z : 0 < r -> 0 <= z ->
  exists t, 0 <= t < PI/2 /\ foot r z t = 0.
Proof.
  intros Hr Hz. pose proof PI_RGT_0.
  assert (F0 : foot r z 0 <= 0) by (unfold foot; rewrite sin_0, cos_0; nra).
  assert (F1 : 0 < foot r z (PI/2)).
  { unfold foot. rewrite sin_PI2, cos_PI2. nra. }
  destruct (IVT_cor (foot r z) 0 (PI/2) (foot_cont r z)) as (t & Ht & Hf); [lra|nra|].
  exists t. split; [|assumption]. split; [lra|].
  destruct Ht as [_ [Ht|Ht]]; [assumption|]. subst t. lra.
Qed.

Lemma foot_neg r z t : foot r (- z) (- t) = - foot r z t.
Proof. unfold foot. rewrite sin_neg, cos_neg. ring. Qed.
End S.

Lemma quarter_out deg p : - PI/2 < p < PI/2 -> - quarter deg < deg_out deg p < quarter deg.
Proof.
  intros H. destruct deg; unfold quarter, deg_out; [|lra].
  rewrite <- degrees_PI2, <- degrees_opp. split; apply degrees_lt; lra.
Qed.
Lemma half_out deg p : - PI < p <= PI -> - half deg < deg_out deg p <= half deg.
Proof.
  intros H. destruct deg; unfold half, deg_out; [|lra].
  rewrite <- degrees_PI, <- degrees_opp. split; [apply degrees_lt | apply degrees_le]; lra.
Qed.
Lemma as_rad_deg_out deg p : as_rad deg (deg_out deg p) = p.
Proof. rewrite as_rad_rad_in. apply rad_in_deg_out. Qed.

(** Every exterior point off the axis is the image of a geodetic triple with h >= 0. *)
Lemma g2e_surj_off_axis_up ell deg x y z :
  ell_ok ell -> (x <> 0 \/ y <> 0) -> 0 <= z ->
  1 <= x ^ 2 / ell_a ell ^ 2 + y ^ 2 / ell_a ell ^ 2 + z ^ 2 / ell_b ell ^ 2 ->
  exists lat lon h, - quarter deg < lat < quarter deg /\ - half deg < lon <= half deg /\
    0 <= h /\ geodetic2ecef lat lon h ell deg = (x, y, z).
Proof.
  intros Hok Hxy Hz Hout. destruct (ell_pos ell Hok) as [Hb Ha].
  pose proof (hypot_pos x y Hxy) as HR.
  destruct (foot_root (ell_a ell) (ell_b ell) Hb Ha (hypot x y) z HR Hz) as (t & Ht & Hf).
  assert (Hc : 0 < cos t) by (apply cos_gt_0; pose proof PI_RGT_0; lra).
  assert (Hs : 0 <= sin t) by (apply sin_ge_0; pose proof PI_RGT_0; lra).
  destruct (foot_gives_geodetic _ _ Hb Ha _ _ t Hc Hf) as [H1 H2].
  destruct (geod_of_reduced _ _ Hb Ha t Hc) as (Hg & _).
  cbv zeta in *.
  set (p := atan (ell_a ell / ell_b ell * tan t)) in *.
  set (g := hypot (ell_b ell * cos t) (ell_a ell * sin t)) in *.
  set (h := (hypot x y / cos t - ell_a ell) * g / ell_b ell) in *.
  assert (Hp : - PI/2 < p < PI/2) by apply atan_bound.
  exists (deg_out deg p), (deg_out deg (atan2 y x)), h.
  split; [now apply quarter_out|]. split; [apply half_out, atan2_range|]. split.
  - (* h >= 0 *)
    assert (HRge : ell_a ell * cos t <= hypot x y).
    { apply Rnot_lt_le. intros Hlt.
      (* foot equation bounds z *)
      assert (Hzle : z <= ell_b ell * sin t).
      { unfold foot in Hf.
        assert (ell_b ell * z * cos t = sin t * (ell_a ell * hypot x y - (ell_a ell ^ 2 - ell_b ell ^ 2) * cos t)) by lra.
        assert (ell_a ell * hypot x y - (ell_a ell ^ 2 - ell_b ell ^ 2) * cos t
                <= ell_b ell ^ 2 * cos t) by nra.
        assert (ell_b ell * z * cos t <= sin t * (ell_b ell ^ 2 * cos t)) by nra.
        apply Rmult_le_reg_r with (ell_b ell * cos t); [nra|]. nra. }
      assert (x ^ 2 / ell_a ell ^ 2 + y ^ 2 / ell_a ell ^ 2 < cos t ^ 2).
      { replace (x ^ 2 / ell_a ell ^ 2 + y ^ 2 / ell_a ell ^ 2)
          with ((hypot x y) ^ 2 / ell_a ell ^ 2)
          by (rewrite hypot_pow2; field; lra).
        apply Rmult_lt_reg_r with (ell_a ell ^ 2); [apply pow_lt; lra|].
        unfold Rdiv. rewrite Rmult_assoc, Rinv_l by (apply pow_nonzero; lra). nra. }
      assert (z ^ 2 / ell_b ell ^ 2 <= sin t ^ 2).
      { apply Rmult_le_reg_r with (ell_b ell ^ 2); [apply pow_lt; lra|].
        unfold Rdiv. rewrite Rmult_assoc, Rinv_l by (apply pow_nonzero; lra). nra. }
      pose proof (sin_pow2 t). lra. }
    unfold h. apply Rmult_le_pos; [|left; apply Rinv_0_lt_compat; lra].
    apply Rmult_le_pos; [|lra].
    assert (ell_a ell <= hypot x y / cos t).
    { apply Rmult_le_reg_r with (cos t); [assumption|]. unfold Rdiv.
      rewrite Rmult_assoc, Rinv_l by lra. lra. }
    lra.
  - rewrite (g2e_unfold ell Hok). cbv zeta. rewrite !as_rad_deg_out.
    rewrite H1, H2. f_equal. f_equal; [apply hypot_cos_atan2|apply hypot_sin_atan2].
Qed.

Lemma g2e_neg ell lat lon h deg : ell_ok ell ->
  geodetic2ecef (- lat) lon h ell deg =
  (let '(x, y, z) := geodetic2ecef lat lon h ell deg in (x, y, - z)).
Proof.
  intros Hok. rewrite !(g2e_unfold ell Hok). cbv zeta.
  replace (as_rad deg (- lat)) with (- as_rad deg lat)
    by (destruct deg; unfold as_rad; lra).
  rewrite cos_neg, sin_neg.
  replace (ell_b ell * - sin (as_rad deg lat)) with (- (ell_b ell * sin (as_rad deg lat))) by ring.
  rewrite hypot_opp_r. f_equal. ring.
Qed.

Lemma g2e_pole ell lon h deg : ell_ok ell ->
  geodetic2ecef (quarter deg) lon h ell deg = (0, 0, ell_b ell + h).
Proof.
  intros Hok. destruct (ell_pos ell Hok) as [Hb Ha]. rewrite (g2e_unfold ell Hok). cbv zeta.
  replace (as_rad deg (quarter deg)) with (PI/2) by (destruct deg; unfold as_rad, quarter; lra).
  rewrite cos_PI2, sin_PI2. rewrite !Rmult_0_r, !Rmult_1_r.
  rewrite (hypot_comm 0), hypot_x0, Rabs_right by lra.
  f_equal; [f_equal; ring|]. field. lra.
Qed.

Lemma g2e_surj ell deg x y z :
  ell_ok ell ->
  1 <= x ^ 2 / ell_a ell ^ 2 + y ^ 2 / ell_a ell ^ 2 + z ^ 2 / ell_b ell ^ 2 ->
  exists lat lon h, - quarter deg <= lat <= quarter deg /\ - half deg < lon <= half deg /\
    0 <= h /\ geodetic2ecef lat lon h ell deg = (x, y, z).
Proof.
  intros Hok Hout. destruct (ell_pos ell Hok) as [Hb Ha].
  assert (Hlon0 : - half deg < 0 <= half deg) by (destruct deg; unfold half; pose proof PI_RGT_0; lra).
  assert (Hq : 0 < quarter deg) by (destruct deg; unfold quarter; pose proof PI_RGT_0; lra).
  assert (Hup : forall z, 0 <= z ->
    1 <= x ^ 2 / ell_a ell ^ 2 + y ^ 2 / ell_a ell ^ 2 + z ^ 2 / ell_b ell ^ 2 ->
    exists lat lon h, - quarter deg <= lat <= quarter deg /\ - half deg < lon <= half deg /\
    0 <= h /\ geodetic2ecef lat lon h ell deg = (x, y, z)).
  { clear z Hout. intros z Hz Hout.
    destruct (Req_dec x 0) as [Hx|Hx].
    - destruct (Req_dec y 0) as [Hy|Hy].
      + subst. exists (quarter deg), 0, (z - ell_b ell).
        repeat split; try lra.
        * assert (ell_b ell ^ 2 <= z ^ 2).
          { replace (z ^ 2) with (z ^ 2 / ell_b ell ^ 2 * ell_b ell ^ 2) by (field; lra).
            assert (1 <= z ^ 2 / ell_b ell ^ 2) by (unfold Rdiv in *; lra).
            pose proof (pow_lt (ell_b ell) 2 Hb). nra. }
          nra.
        * rewrite g2e_pole by assumption. f_equal; ring.
      + destruct (g2e_surj_off_axis_up ell deg x y z Hok (or_intror Hy) Hz Hout) as (la & lo & h & H1 & H2 & H3 & H4).
        exists la, lo, h. repeat split; try assumption; lra.
    - destruct (g2e_surj_off_axis_up ell deg x y z Hok (or_introl Hx) Hz Hout) as (la & lo & h & H1 & H2 & H3 & H4).
      exists la, lo, h. repeat split; try assumption; lra. }
  destruct (Rle_lt_dec 0 z) as [Hz|Hz]; [now apply Hup|].
  destruct (Hup (- z)) as (la & lo & h & H1 & H2 & H3 & H4); [lra| |].
  - now replace ((- z) ^ 2) with (z ^ 2) by ring.
  - exists (- la), lo, h. repeat split; try lra.
    rewrite g2e_neg by assumption. rewrite H4. f_equal. ring.
Qed.

(** ** You's closed form is not exact away from the surface *)
Definition wit_x := 37 / 4 * (1 / sqrt 2).
Definition wit_z := 35 / 4 * (1 / sqrt 2).

Lemma inv_sqrt2_sq : (1 / sqrt 2) ^ 2 = 1 / 2.
Proof.
  assert (0 < sqrt 2) by (apply sqrt_lt_R0; lra).
  assert (sqrt 2 ^ 2 = 2) by (apply pow2_sqrt'; lra).
  replace ((1 / sqrt 2) ^ 2) with (1 / (sqrt 2 ^ 2)) by (field; lra). rewrite H0. reflexivity.
Qed.
Lemma inv_sqrt2_pos : 0 < 1 / sqrt 2.
Proof. apply Rdiv_lt_0_compat; [lra|]. apply sqrt_lt_R0; lra. Qed.

Lemma wit_E : you_E ex_ell = 3.
Proof. unfold you_E, ex_ell; cbn [semimajor_axis semiminor_axis]. apply sqrt_uniq; lra. Qed.
Lemma wit_u : you_u ex_ell wit_x 0 wit_z = 35 / 4.
Proof.
  assert (HH := inv_sqrt2_sq).
  assert (H1 : wit_x ^ 2 = 1369 / 32) by (unfold wit_x; rewrite Rpow_mult_distr, HH; lra).
  assert (H2 : wit_z ^ 2 = 1225 / 32) by (unfold wit_z; rewrite Rpow_mult_distr, HH; lra).
  apply u_char; try lra; rewrite wit_E, H1, H2; lra.
Qed.
Lemma wit_huE : hypot (35/4) 3 = 37/4.
Proof. apply hypot_uniq; lra. Qed.
Lemma wit_beta : beta_scalar ex_ell wit_x 0 wit_z = PI / 4 - 9 / 334.
Proof.
  pose proof inv_sqrt2_pos as Hp.
  assert (Hx : hypot wit_x 0 = wit_x) by (rewrite hypot_x0, Rabs_right; [reflexivity|unfold wit_x; lra]).
  unfold beta_scalar. rewrite wit_u, Hx.
  destruct (Req_EM_T (35/4) 0); [lra|].
  destruct (Req_EM_T wit_x 0) as [Heq|_]; [unfold wit_x in Heq; lra|].
  unfold you_beta. rewrite wit_u, wit_E, wit_huE, Hx.
  replace (37 / 4 / (35 / 4) * wit_z / wit_x) with 1
    by (unfold wit_z, wit_x; set (q := 1 / sqrt 2) in *; field; lra).
  rewrite atan_1. unfold ex_ell; cbn [semimajor_axis semiminor_axis].
  rewrite cos_PI4, sin_PI4.
  assert (Hs := inv_sqrt2_sq). set (q := 1 / sqrt 2) in *.
  replace (5 * (37 / 4) * 1 / q - 3 ^ 2 * q) with ((5 * (37/4) - 9 * q ^ 2) / q) by (field; lra).
  rewrite Hs.
  replace ((4 * (35 / 4) - 5 * (37 / 4) + 3 ^ 2) * q / ((5 * (37 / 4) - 9 * (1 / 2)) / q))
    with ((4 * (35 / 4) - 5 * (37 / 4) + 3 ^ 2) * q ^ 2 / (5 * (37 / 4) - 9 * (1 / 2)))
    by (field; lra).
  rewrite Hs. lra.
Qed.

Lemma cos_lower t : 0 <= t <= 1 -> 1 - t ^ 2 / 2 <= cos t.
Proof.
  intros Ht. replace t with (2 * (t / 2)) at 2 by lra. rewrite cos_2a_sin.
  assert (0 <= sin (t/2) <= t/2).
  { split; [apply sin_ge_0; pose proof PI2_1; lra|].
    destruct (Req_dec t 0) as [->|]; [replace (0/2) with 0 by lra; rewrite sin_0; lra|].
    left. apply sin_lt_x. lra. }
  nra.
Qed.

Lemma wit_foot : 0 < foot 5 4 wit_x wit_z (PI/4 - 9/334).
Proof.
  unfold foot. rewrite sin_minus, cos_minus, cos_PI4, sin_PI4.
  assert (Hs := inv_sqrt2_sq). pose proof inv_sqrt2_pos as Hp. unfold wit_x, wit_z.
  set (q := 1 / sqrt 2) in *. set (t := 9/334).
  pose proof (cos_lower t ltac:(unfold t; lra)) as Hc.
  assert (Hsn : 0 < sin t < t).
  { split; [apply sin_gt_0; unfold t; pose proof PI2_1; lra|apply sin_lt_x; unfold t; lra]. }
  pose proof (sc1 t) as H1.
  replace (5 * (37 / 4 * q) * (q * cos t - q * sin t) - 4 * (35 / 4 * q) * (q * cos t + q * sin t) -
    (5 ^ 2 - 4 ^ 2) * ((q * cos t - q * sin t) * (q * cos t + q * sin t)))
   with (q ^ 2 * (45/4 * cos t - 325/4 * sin t - 9 * (cos t * cos t - sin t * sin t))) by field.
  rewrite Hs. unfold t in *. pose proof (COS_bound (9/334)). nra.
Qed.

Lemma wit_not_exact :
  let '(lat, lon, h) := ecef2geodetic wit_x 0 wit_z (Some ex_ell) true in
  geodetic2ecef lat lon h (Some ex_ell) true <> (wit_x, 0, wit_z).
Proof.
  unfold ecef2geodetic. cbv zeta. cbn [resolve_ellipsoid].
  pose proof inv_sqrt2_pos as Hp.
  assert (Hxp : 0 < wit_x) by (unfold wit_x; lra).
  set (B := beta_scalar ex_ell wit_x 0 wit_z).
  set (h := alt_of_beta _ _ _ _ _ _).
  assert (HB : B = PI / 4 - 9 / 334) by apply wit_beta.
  assert (HcB : 0 < cos B).
  { rewrite HB. apply cos_gt_0; pose proof PI2_1; pose proof PI_RGT_0; lra. }
  unfold lat_scalar. destruct (Req_EM_T (cos B) 0); [lra|].
  intros Heq. rewrite (g2e_unfold _ ex_ell_ok) in Heq. cbv zeta in Heq.
  rewrite !as_rad_deg_out in Heq.
  injection Heq as E1 _ E3.
  assert (Hlon : cos (atan2 0 wit_x) = 1).
  { rewrite atan2_pos by assumption. replace (0 / wit_x) with 0 by (field; lra).
    rewrite atan_0. apply cos_0. }
  rewrite Hlon, Rmult_1_r in E1.
  cbn [ell_a ell_b ex_ell semimajor_axis semiminor_axis] in E1, E3.
  unfold lat_of_beta in E1, E3; cbn [ex_ell semimajor_axis semiminor_axis] in E1, E3.
  pose proof (geodetic_gives_foot 5 4 ltac:(lra) ltac:(lra) wit_x wit_z B h HcB) as HF.
  cbv zeta in HF. specialize (HF E1 E3).
  pose proof wit_foot as HW. rewrite <- HB in HW. lra.
Qed.

(** Hence there is a geodetic triple whose round trip is not exact. *)
Lemma roundtrip_not_exact :
  exists ell lat lon h, ell_ok ell /\ -90 < lat < 90 /\ -180 < lon <= 180 /\ 0 <= h /\
    let '(x, y, z) := geodetic2ecef lat lon h ell true in
    ecef2geodetic x y z ell true <> (lat, lon, h).
Proof.
  pose proof inv_sqrt2_pos as Hp.
  assert (Hxp : 0 < wit_x) by (unfold wit_x; lra).
  assert (Hzp : 0 < wit_z) by (unfold wit_z; lra).
  destruct (g2e_surj_off_axis_up (Some ex_ell) true wit_x 0 wit_z ex_ell_ok) as (lat & lon & h & H1 & H2 & H3 & H4).
  - left; lra.
  - lra.
  - cbn [ell_a ell_b ex_ell semimajor_axis semiminor_axis].
    assert (HH := inv_sqrt2_sq).
    assert (Hx2 : wit_x ^ 2 = 1369 / 32) by (unfold wit_x; rewrite Rpow_mult_distr, HH; lra).
    assert (Hz2 : wit_z ^ 2 = 1225 / 32) by (unfold wit_z; rewrite Rpow_mult_distr, HH; lra).
    rewrite Hx2, Hz2. lra.
  - exists (Some ex_ell), lat, lon, h. cbn [quarter half] in H1, H2.
    split; [apply ex_ell_ok|]. split; [assumption|]. split; [assumption|]. split; [assumption|].
    rewrite H4. intros Heq.
    pose proof wit_not_exact as HW. rewrite Heq in HW. apply HW. exact H4.
Qed.
