(** The array path of ecef2geodetic against the scalar path. *)
From Coq Require Import Lia Psatz Bool.
From Verif Require Import PyMath L_PyMath M_ellipsoid M_ecef Spec L_ell L_ecef L_ecef2geo L_ecefrt L_ecefsurj L_ecefprops.
Open Scope R_scope.

Lemma sqrt_le_left_sq x y : 0 <= y -> x <= y ^ 2 -> sqrt x <= y.
Proof. intros Hy H. rewrite <- (sqrt_pow2 y Hy). now apply sqrt_le_1_alt. Qed.
Lemma eps64_bounds : 0 < eps64 < 1.
Proof.
  unfold eps64. split; [apply Rinv_0_lt_compat, pow_lt; lra|].
  rewrite <- Rinv_1. apply Rinv_lt_contravar; [|apply Rlt_pow_R1; [lra|lia]].
  rewrite Rmult_1_l. apply pow_lt. lra.
Qed.

Lemma u_outside e x y z : valid_ell e ->
  1 <= x ^ 2 / semimajor_axis e ^ 2 + y ^ 2 / semimajor_axis e ^ 2 + z ^ 2 / semiminor_axis e ^ 2 ->
  semiminor_axis e <= you_u e x y z.
Proof.
  intros He H. destruct He as [Hb Ha] eqn:HH. clear HH.
  set (a := semimajor_axis e) in *. set (b := semiminor_axis e) in *.
  assert (H' : a ^ 2 * b ^ 2 <= b ^ 2 * (x ^ 2 + y ^ 2) + a ^ 2 * z ^ 2).
  { replace (b ^ 2 * (x ^ 2 + y ^ 2) + a ^ 2 * z ^ 2) with (a ^ 2 * b ^ 2 * (x ^ 2 / a ^ 2 + y ^ 2 / a ^ 2 + z ^ 2 / b ^ 2)) by (field; split; lra).
    rewrite <- (Rmult_1_r (a ^ 2 * b ^ 2)) at 1. apply Rmult_le_compat_l; [|exact H].
    assert (0 < a) by lra. apply Rmult_le_pos; apply pow_le; lra. }
  pose proof (u_quartic e x y z) as Q. pose proof (u_sq e x y z) as S. cbv zeta in *.
  pose proof (E_sq e He) as E2. fold a b in E2. pose proof (u_nonneg e x y z) as U.
  set (u := you_u e x y z) in *. rewrite E2 in *. set (t := x ^ 2 + y ^ 2 + z ^ 2 - (a ^ 2 - b ^ 2)) in *.
  pose proof (hypot_ge_abs_l t (2 * you_E e * z)) as G. pose proof (Rle_abs t) as G2. 
  assert (t <= u ^ 2) by (pose proof (Rle_abs (- t)) as G3; rewrite Rabs_Ropp in G3; nra).
  assert (K : 0 <= (u ^ 2 - b ^ 2) * (u ^ 2 + b ^ 2 - t)).
  { replace ((u ^ 2 - b ^ 2) * (u ^ 2 + b ^ 2 - t)) with (u ^ 2 * u ^ 2 - t * u ^ 2 - (b ^ 2 * b ^ 2 - t * b ^ 2)) by ring.
    rewrite Q. unfold t. nra. }
  assert (0 < u ^ 2 + b ^ 2 - t) by nra.
  assert (0 <= u ^ 2 - b ^ 2) by nra. nra.
Qed.

Lemma beta_numpy_mirror e x y z : beta_numpy e x y (- z) = - beta_numpy e x y z.
Proof.
  unfold beta_numpy. rewrite u_mirror. destruct (_ || _)%bool; [apply exc_mirror|]. apply you_beta_mirror.
Qed.

Lemma lane_mirror x y z ell deg :
  let '(lat, lon, alt) := ecef2geodetic_lane x y z ell deg in
  ecef2geodetic_lane x y (- z) ell deg = (- lat, lon, alt).
Proof.
  unfold ecef2geodetic_lane. cbv zeta. rewrite beta_numpy_mirror.
  set (B := beta_numpy _ x y z). pose proof eps64_bounds. pose proof PI2_1.
  rewrite lat_scalar_mirror, cos_neg.
  assert (Ho : forall p, deg_out deg (- p) = - deg_out deg p) by (intros; destruct deg; [apply degrees_opp|reflexivity]).
  destruct (Rle_dec (- B) (- (PI / 2 - eps64))), (Rle_dec (PI / 2 - eps64) (- B)),
    (Rle_dec B (- (PI / 2 - eps64))), (Rle_dec (PI / 2 - eps64) B); try lra; rewrite alt_mirror, <- Ho;
    repeat f_equal; lra.
Qed.

(** Away from the tolerances the array path is the scalar path. *)
Lemma lat_of_beta_ge e B : valid_ell e -> - PI / 2 < B < PI / 2 -> Rabs B <= Rabs (lat_scalar e B).
Proof.
  intros [Hb Ha] HB.
  assert (Q : forall C, 0 <= C < PI / 2 -> C <= lat_scalar e C).
  { intros C HC. unfold lat_scalar. assert (0 < cos C) by (apply cos_gt_0; lra).
    destruct (Req_EM_T (cos C) 0); [lra|]. unfold lat_of_beta.
    rewrite <- (atan_tan_id C) at 1 by lra.
    assert (0 <= tan C).
    { destruct (Req_dec C 0) as [->|]; [rewrite tan_0; lra|]. left. apply tan_gt_0; lra. }
    assert (1 <= semimajor_axis e / semiminor_axis e) by (apply (Rmult_le_reg_r (semiminor_axis e)); [lra|]; unfold Rdiv; rewrite Rmult_assoc, Rinv_l; lra).
    assert (tan C <= semimajor_axis e / semiminor_axis e * tan C) by nra.
    destruct (Req_dec (tan C) (semimajor_axis e / semiminor_axis e * tan C)) as [<-|]; [lra|].
    left. apply atan_increasing. lra. }
  destruct (Rle_dec 0 B).
  - pose proof (Q B ltac:(lra)). rewrite !Rabs_right; lra.
  - pose proof (Q (- B) ltac:(lra)) as K. rewrite lat_scalar_mirror in K.
    rewrite !Rabs_left1; lra.
Qed.

Lemma as_rad_deg_opp deg p : deg_out deg (- p) = - deg_out deg p.
Proof. destruct deg; [apply degrees_opp|reflexivity]. Qed.

Lemma lane_scalar x y z ell deg : ell_ok ell -> 1 / 100000000 < ell_b ell ->
  1 <= x ^ 2 / ell_a ell ^ 2 + y ^ 2 / ell_a ell ^ 2 + z ^ 2 / ell_b ell ^ 2 ->
  (x = 0 /\ y = 0 \/
   1 / 100000000 < sqrt (x ^ 2 + y ^ 2) /\
   (let '(lat, _, _) := ecef2geodetic x y z ell deg in Rabs (as_rad deg lat) < PI / 2 - eps64)) ->
  ecef2geodetic_lane x y z ell deg = ecef2geodetic x y z ell deg.
Proof.
  intros Hok Hb Ho H. pose proof (resolve_valid ell Hok) as He.
  rewrite <- resolve_a, <- resolve_b in Ho. rewrite <- resolve_b in Hb.
  set (e := resolve_ellipsoid ell) in *. pose proof (u_outside e x y z He Ho) as Hu.
  pose proof eps64_bounds as E0. pose proof PI2_1 as P1.
  assert (U0 : isclose0 (you_u e x y z) = false) by (apply isclose0_big; rewrite Rabs_right; lra).
  destruct H as [[-> ->]|[Hr Hl]].
  - assert (h0 : hypot 0 0 = 0) by (unfold hypot; replace (_ + _) with 0 by ring; apply sqrt_0).
    unfold ecef2geodetic_lane, ecef2geodetic. cbv zeta. fold e.
    assert (BB : beta_numpy e 0 0 z = beta_scalar e 0 0 z).
    { unfold beta_numpy, beta_scalar. rewrite h0, isclose0_0, orb_true_r.
      destruct (Req_EM_T (you_u e 0 0 z) 0); [reflexivity|]. destruct (Req_EM_T 0 0); [reflexivity|lra]. }
    rewrite BB. set (B := beta_scalar e 0 0 z).
    assert (HB : B = 0 \/ B = PI/2 \/ B = - (PI/2)).
    { unfold B. rewrite <- BB. unfold beta_numpy. rewrite h0, isclose0_0, orb_true_r.
      destruct (isclose0 z); [tauto|]. destruct (Rlt_dec 0 z); [tauto|]. right; right; lra. }
    destruct HB as [->|[->| ->]].
    + destruct (Rle_dec 0 (- (PI / 2 - eps64))); [lra|]. destruct (Rle_dec (PI / 2 - eps64) 0); [lra|]. reflexivity.
    + destruct (Rle_dec (PI/2) (- (PI / 2 - eps64))); [lra|]. destruct (Rle_dec (PI / 2 - eps64) (PI/2)); [|lra].
      unfold lat_scalar. rewrite cos_PI2, sin_PI2. destruct (Req_EM_T 0 0); [|lra].
      unfold sign. destruct (Rlt_dec 1 0); [lra|]. destruct (Rlt_dec 0 1); [|lra]. now rewrite Rmult_1_r.
    + destruct (Rle_dec (- (PI/2)) (- (PI / 2 - eps64))); [|lra]. destruct (Rle_dec (PI / 2 - eps64) (- (PI/2))); [lra|].
      unfold lat_scalar. rewrite cos_neg, sin_neg, cos_PI2, sin_PI2. destruct (Req_EM_T 0 0); [|lra].
      unfold sign. destruct (Rlt_dec (-(1)) 0); [|lra].
      replace (PI / 2 * -1) with (- PI / 2) by lra. reflexivity.
  - unfold ecef2geodetic in Hl |- *. unfold ecef2geodetic_lane. cbv zeta in *. fold e in Hl |- *.
    rewrite as_rad_deg_out in Hl.
    assert (Hh : 1 / 100000000 < hypot x y) by exact Hr.
    assert (BB : beta_numpy e x y z = you_beta e x y z).
    { unfold beta_numpy. rewrite U0. rewrite isclose0_big by (rewrite Rabs_right; lra). reflexivity. }
    assert (BS : beta_scalar e x y z = you_beta e x y z).
    { unfold beta_scalar. destruct (Req_EM_T (you_u e x y z) 0); [lra|]. destruct (Req_EM_T (hypot x y) 0); [lra|]. reflexivity. }
    rewrite BB, BS in *. set (B := you_beta e x y z) in *.
    assert (HB : - PI / 2 < B < PI / 2) by (apply you_beta_range; [exact He|lra|lra]).
    pose proof (lat_of_beta_ge e B He HB) as K.
    assert (K2 : Rabs B < PI / 2 - eps64) by lra. apply Rabs_def2 in K2.
    destruct (Rle_dec B (- (PI / 2 - eps64))); [lra|]. destruct (Rle_dec (PI / 2 - eps64) B); [lra|]. reflexivity.
Qed.

Lemma roundtrip_pole_array ell lon h deg (south : bool) :
  ell_ok ell -> 1 / 100000000 < ell_b ell -> 0 <= h ->
  let lat := (if south then - quarter deg else quarter deg) in
  ecef2geodetic_array (geodetic2ecef lat lon h ell deg :: nil) ell deg = (lat, 0, h) :: nil.
Proof.
  intros Hok Hb Hh lat. pose proof (roundtrip_pole ell lon h deg south Hok ltac:(lra)) as R0. cbv zeta in R0. fold lat in R0.
  unfold ecef2geodetic_array. cbn [List.map].
  assert (G : geodetic2ecef lat lon h ell deg = (0, 0, if south then - (ell_b ell + h) else ell_b ell + h)).
  { unfold lat. destruct south; [rewrite g2e_neg by exact Hok|]; rewrite g2e_pole by exact Hok; reflexivity. }
  rewrite G in *. rewrite lane_scalar; [now rewrite R0|exact Hok|exact Hb| |now left].
  set (z := if south then _ else _). replace (z ^ 2) with ((ell_b ell + h) ^ 2) by (unfold z; destruct south; ring).
  assert (ell_b ell <> 0) by lra.
  assert (ell_a ell <> 0) by (pose proof (resolve_valid ell Hok) as [K1 K2]; rewrite resolve_a, resolve_b in *; lra).
  replace (0 ^ 2 / ell_a ell ^ 2 + 0 ^ 2 / ell_a ell ^ 2 + (ell_b ell + h) ^ 2 / ell_b ell ^ 2) with ((1 + h / ell_b ell) ^ 2) by (field; split; assumption).
  assert (0 <= h / ell_b ell) by (apply Rmult_le_pos; [lra|left; apply Rinv_0_lt_compat; lra]). nra.
Qed.

Lemma roundtrip_surface_array ell lat lon deg :
  ell_ok ell -> 1 / 100000000 < ell_b ell ->
  Rabs (as_rad deg lat) < PI / 2 - eps64 -> - half deg < lon <= half deg ->
  1 / 100000000 < ell_a ell * cos (as_rad deg lat) ->
  ecef2geodetic_array (geodetic2ecef lat lon 0 ell deg :: nil) ell deg = (lat, lon, 0) :: nil.
Proof.
  intros Hok Hb Hl Hlon Hc.
  assert (HL : - quarter deg < lat < quarter deg).
  { pose proof eps64_bounds. apply Rabs_def2 in Hl. rewrite <- (deg_out_as_rad deg lat). apply quarter_out. lra. }
  pose proof (roundtrip_surface ell lat lon deg Hok HL Hlon) as R0.
  pose proof (g2e_surface ell Hok lat lon deg) as S.
  destruct (geodetic2ecef lat lon 0 ell deg) as [[x y] z] eqn:G.
  unfold ecef2geodetic_array. cbn [List.map]. rewrite lane_scalar; [now rewrite R0|exact Hok|exact Hb| |].
  - unfold on_ellipsoid in S. right. symmetry. exact S.
  - right. rewrite R0. split; [|exact Hl].
    unfold geodetic2ecef in G. cbv zeta in G. change as_rad with rad_in in *.
    injection G as <- <- _. rewrite Rplus_0_r. 
    pose proof (resolve_valid ell Hok) as [K1 K2]. rewrite resolve_a, resolve_b in *.
    set (p := rad_in deg lat) in *. set (l := rad_in deg lon) in *.
    set (a := ell_a ell) in *. set (b := ell_b ell) in *. clear - K1 K2 Hc.
    set (h := hypot (a * cos p) (b * sin p)).
    assert (Hp : 0 < h) by (apply hypot_pos; left; lra).
    assert (Hh : h <= a).
    { unfold h, hypot. apply sqrt_le_left_sq; [lra|]. pose proof (sin2_cos2 p) as Q. unfold Rsqr in Q.
      replace (a ^ 2) with (a ^ 2 * (sin p * sin p + cos p * cos p)) by (rewrite Q; ring).
      assert (b ^ 2 <= a ^ 2) by nra. assert (0 <= sin p * sin p) by nra. nra. }
    assert (HN : a <= a ^ 2 / h).
    { apply (Rmult_le_reg_r h); [exact Hp|]. unfold Rdiv. rewrite Rmult_assoc, Rinv_l by lra. nra. }
    set (N := a ^ 2 / h) in *. assert (0 < cos p) by (assert (0 < a) by lra; nra).
    apply Rlt_le_trans with (1 := Hc). change (a * (a * 1) / h) with N.
    replace ((N * cos p * cos l) ^ 2 + (N * cos p * sin l) ^ 2) with ((N * cos p) ^ 2 * (sin l * sin l + cos l * cos l)) by ring.
    pose proof (sin2_cos2 l) as Q. unfold Rsqr in Q. rewrite Q, Rmult_1_r.
    rewrite <- Rsqr_pow2, sqrt_Rsqr by nra. nra.
Qed.
