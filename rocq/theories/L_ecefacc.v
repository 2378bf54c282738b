(** How far You's one-step closed form is from the exact geodetic coordinates. *)
From Coq Require Import Reals Lra Lia Psatz.
From Coquelicot Require Import Coquelicot.
From Verif Require Import PyMath L_PyMath M_ellipsoid M_ecef Spec L_ell L_ecef L_ecef2geo L_ecefrt L_ecefsurj L_series2.
Open Scope R_scope.

Lemma sc_half t : Rabs (sin t * cos t) <= 1 / 2.
Proof.
  pose proof (sc1 t). pose proof (sq_nonneg (sin t - cos t)). pose proof (sq_nonneg (sin t + cos t)).
  apply Rabs_le. split; nra.
Qed.
Lemma s3c t : Rabs (sin t ^ 2 * (sin t * cos t)) <= 1 / 3.
Proof.
  pose proof (sin_pow2 t) as H. pose proof (sq_nonneg (sin t)) as P. pose proof (sq_nonneg (cos t)) as Q.
  apply Rsqr_incr_0_var; [|lra]. rewrite <- Rsqr_abs, !Rsqr_pow2.
  replace ((sin t ^ 2 * (sin t * cos t)) ^ 2) with ((sin t ^ 2) ^ 3 * cos t ^ 2) by ring.
  replace (cos t ^ 2) with (1 - sin t ^ 2) by lra. set (x := sin t ^ 2) in *.
  pose proof (sq_nonneg (x - 3/4)).
  assert (0 <= (x - 3/4)^2 * (x ^ 2 + x / 2 + 3 / 16)) by (apply Rmult_le_pos; nra). nra.
Qed.

Lemma taylor_small d : Rabs d <= 1 / 2 ->
  Rabs (d * cos d - sin d) <= Rabs d * d ^ 2 / 2 /\ Rabs (cos d - cos (2 * d)) <= 1512 / 1000 * d ^ 2 /\
  0 <= 1 - cos d <= d ^ 2 / 2 /\ Rabs (sin d) <= Rabs d.
Proof.
  intros H. destruct (cos_taylor d) as (t1 & T1 & E1). destruct (cos_taylor (2 * d)) as (t2 & T2 & E2).
  destruct (sin_taylor d) as (t3 & T3 & E3).
  assert (HS : 0 <= d ^ 2 <= 1 / 4) by (pose proof (sq_nonneg d); split; [lra|]; rewrite <- pow2_abs; pose proof (Rabs_pos d); nra).
  apply Rabs_le_between in T1, T2, T3.
  replace (d ^ 4) with (d ^ 2 * d ^ 2) in * by ring. replace (d ^ 6) with (d ^ 2 * (d ^ 2 * d ^ 2)) in * by ring.
  replace ((2 * d) ^ 2) with (4 * d ^ 2) in * by ring. replace ((2 * d) ^ 4) with (16 * (d ^ 2 * d ^ 2)) in * by ring.
  replace ((2 * d) ^ 6) with (64 * (d ^ 2 * (d ^ 2 * d ^ 2))) in * by ring.
  set (q := d ^ 2) in *.
  assert (0 <= q * q <= q / 4) by (split; nra). assert (0 <= q * (q * q) <= q / 16 /\ q * (q * q) <= q * q / 4) by (repeat split; nra).
  assert (B : forall t m, -1 <= t <= 1 -> 0 <= m -> - m <= t * m <= m) by (intros; split; nra).
  pose proof (B t1 _ T1 (proj1 (proj1 H1))) as B1. pose proof (B t2 _ T2 (proj1 (proj1 H1))) as B2. pose proof (B t3 _ T3 (proj1 (proj1 H1))) as B3.
  split; [|split; [|split]].
  - rewrite E1, E3.
    replace (d * (1 - q / 2 + q * q / 24 - t1 * (q * (q * q)) / 720) - d * (1 - q / 6 + q * q / 120 - t3 * (q * (q * q)) / 5040))
      with (d * (- q / 3 + q * q / 30 - t1 * (q * (q * q)) / 720 + t3 * (q * (q * q)) / 5040)) by field.
    rewrite Rabs_mult. replace (Rabs d * q / 2) with (Rabs d * (q / 2)) by field.
    apply Rmult_le_compat_l; [apply Rabs_pos|]. apply Rabs_le. split; lra.
  - rewrite E1, E2. apply Rabs_le. split; lra.
  - rewrite E1. split; lra.
  - rewrite E3, Rabs_mult. rewrite <- (Rmult_1_r (Rabs d)) at 2.
    apply Rmult_le_compat_l; [apply Rabs_pos|]. apply Rabs_le. split; lra.
Qed.

Section STEP.
Variables a b : R.
Hypothesis Hb : 0 < b.
Hypothesis Ha : b <= a.

(** The defect of the foot-point equation left by one step. *)
Lemma foot_step G u t :
  let E2 := a ^ 2 - b ^ 2 in
  let K := a * G - b * u - E2 in let D := a * G - E2 * cos t ^ 2 in
  0 <= K -> 0 < D -> K <= D ->
  Rabs (foot a b (G * cos t) (u * sin t) (t - K / D * (sin t * cos t)))
   <= K ^ 2 / D * (1 / 3 + 1 / 16 + 255 / 1000 * (E2 / D)).
Proof.
  intros E2 K D HK HD HKD. pose proof (sc_half t) as S2. pose proof (s3c t) as S3.
  set (p := sin t * cos t) in *. set (d := K / D * p).
  assert (HE : 0 <= E2) by (unfold E2; nra).
  assert (HKD1 : 0 <= K / D <= 1).
  { split; [apply Rmult_le_pos; [lra|left; now apply Rinv_0_lt_compat]|].
    apply Rmult_le_reg_r with D; [assumption|]. unfold Rdiv. rewrite Rmult_assoc, Rinv_l; lra. }
  assert (Hd : Rabs d <= K / D / 2).
  { unfold d. rewrite Rabs_mult, (Rabs_pos_eq (K / D)) by lra. nra. }
  assert (Hd2 : Rabs d <= 1 / 2) by lra.
  assert (HDd : D * Rabs d <= K / 2).
  { apply Rle_trans with (D * (K / D / 2)); [apply Rmult_le_compat_l; lra|]. right. field. lra. }
  assert (Hsd : sin t ^ 2 * Rabs d <= K / D / 3).
  { unfold d. rewrite Rabs_mult, (Rabs_pos_eq (K / D)) by lra.
    rewrite Rabs_mult, (Rabs_pos_eq (sin t ^ 2)) in S3 by apply sq_nonneg. nra. }
  destruct (taylor_small d Hd2) as (T1 & T2 & T3 & T4).
  assert (Hdd : d ^ 2 <= (K / D) ^ 2 / 4).
  { rewrite <- pow2_abs. pose proof (Rabs_pos d). nra. }
  pose proof (sq_nonneg d) as Hd0.
  assert (F : foot a b (G * cos t) (u * sin t) (t - d)
    = D * (d * cos d - sin d) + K * sin t ^ 2 * sin d + p * E2 * (cos d - cos (2 * d))
      - E2 * (cos t ^ 2 - sin t ^ 2) * sin d * (1 - cos d)).
  { unfold foot. rewrite sin_minus, cos_minus. fold E2.
    assert (DK : D * d = K * p) by (unfold d; field; lra).
    replace (D * (d * cos d - sin d)) with (D * d * cos d - D * sin d) by ring. rewrite DK.
    rewrite cos_2a. unfold p, K, D. pose proof (sc1 t) as X1. pose proof (sc1 d) as X2.
    replace (sin t ^ 2) with (1 - cos t ^ 2) by (pose proof (sin_pow2 t); lra).
    assert (cos t ^ 2 = 1 - sin t ^ 2) as Y by (pose proof (sin_pow2 t); lra).
    ring_simplify. 
    replace (sin t ^ 2) with (1 - cos t ^ 2) by (pose proof (sin_pow2 t); lra).
    replace (sin d ^ 2) with (1 - cos d ^ 2) by (pose proof (sin_pow2 d); lra). ring_simplify.
    reflexivity. }
  rewrite F. clear F. clearbody d.
  assert (Q : K ^ 2 / D = K * (K / D)) by (field; lra).
  assert (Q2 : K ^ 2 / D * (E2 / D) = E2 * (K / D) ^ 2) by (field; lra).
  rewrite !Rmult_plus_distr_l. replace (K ^ 2 / D * (255 / 1000 * (E2 / D))) with (255 / 1000 * (E2 * (K / D) ^ 2)) by (rewrite <- Q2; ring).
  rewrite Q. set (k := K / D) in *.
  assert (k * k <= k) by nra.
  assert (B1 : Rabs (D * (d * cos d - sin d)) <= K * k * (1 / 16)).
  { rewrite Rabs_mult, (Rabs_pos_eq D) by lra.
    apply Rle_trans with (D * (Rabs d * d ^ 2 / 2)); [apply Rmult_le_compat_l; lra|].
    replace (D * (Rabs d * d ^ 2 / 2)) with (D * Rabs d * (d ^ 2 / 2)) by field.
    apply Rle_trans with (K / 2 * (k ^ 2 / 8)).
    - apply Rmult_le_compat; try lra. apply Rmult_le_pos; [lra|apply Rabs_pos].
    - replace (k ^ 2) with (k * k) by ring. nra. }
  assert (B2 : Rabs (K * sin t ^ 2 * sin d) <= K * k * (1 / 3)).
  { rewrite Rabs_mult, (Rabs_pos_eq (K * _)) by (apply Rmult_le_pos; [lra|apply sq_nonneg]).
    rewrite Rmult_assoc, Rmult_assoc. apply Rmult_le_compat_l; [lra|].
    apply Rle_trans with (sin t ^ 2 * Rabs d); [|lra].
    apply Rmult_le_compat_l; [apply sq_nonneg|assumption]. }
  assert (B3 : Rabs (p * E2 * (cos d - cos (2 * d))) <= 189 / 1000 * (E2 * k ^ 2)).
  { rewrite !Rabs_mult, (Rabs_pos_eq E2) by lra.
    apply Rle_trans with (1 / 2 * E2 * (1512 / 1000 * (k ^ 2 / 4))).
    - apply Rmult_le_compat; try apply Rabs_pos; [apply Rmult_le_pos; [apply Rabs_pos|lra]| |lra].
      apply Rmult_le_compat_r; lra.
    - right. field. }
  assert (B4 : Rabs (E2 * (cos t ^ 2 - sin t ^ 2) * sin d * (1 - cos d)) <= 625 / 10000 * (E2 * k ^ 2)).
  { rewrite !Rabs_mult, (Rabs_pos_eq E2), (Rabs_pos_eq (1 - cos d)) by lra.
    apply Rle_trans with (E2 * 1 * (1 / 2) * (k ^ 2 / 8)).
    - apply Rmult_le_compat; try lra.
      + repeat apply Rmult_le_pos; try apply Rabs_pos; lra.
      + apply Rmult_le_compat; try lra; try apply Rabs_pos.
        * apply Rmult_le_pos; [lra|apply Rabs_pos].
        * apply Rmult_le_compat_l; [lra|]. pose proof (sin_pow2 t). pose proof (sq_nonneg (cos t)). pose proof (sq_nonneg (sin t)).
          apply Rabs_le. lra.
    - right. field. }
  assert (0 <= E2 * k ^ 2) by (apply Rmult_le_pos; [lra|apply sq_nonneg]).
  apply Rabs_le_between in B1, B2, B3, B4. apply Rabs_le. split; lra.
Qed.
End STEP.

Section ACC.
Variable e : Ellipsoid.
Hypothesis He : valid_ell e.
Let a := semimajor_axis e.
Let b := semiminor_axis e.
Let E := you_E e.
Let Hb : 0 < b. Proof. apply He. Qed.
Let Ha : b <= a. Proof. apply He. Qed.

Lemma polar0 x y z : you_u e x y z <> 0 -> hypot x y <> 0 ->
  hypot x y = hypot (you_u e x y z) E * cos (beta0 e x y z) /\
  z = you_u e x y z * sin (beta0 e x y z).
Proof.
  intros Hu Hh. pose proof (confocal e x y z Hu) as C. cbv zeta in C. fold E in C.
  pose proof (u_nonneg e x y z) as Hun. set (u := you_u e x y z) in *.
  pose proof (hypot_pow2 u E) as HG. assert (HGp : 0 < hypot u E) by (apply hypot_pos; left; lra).
  set (G := hypot u E) in *. pose proof (hypot_pow2 x y) as Hr. pose proof (hypot_nonneg x y) as Hr0.
  set (r := hypot x y) in *. assert (0 < r) by lra. assert (0 < u) by lra.
  rewrite <- HG, <- Hr in C.
  assert (HX : 0 < r / G) by (apply Rdiv_lt_0_compat; lra).
  assert (H1 : hypot (r / G) (z / u) = 1).
  { apply hypot_uniq; [lra|]. replace (1 * 1) with 1 by ring. rewrite <- C. field. split; lra. }
  assert (HB : beta0 e x y z = atan (z / u / (r / G))).
  { unfold beta0. fold u E G r. f_equal. field. repeat split; lra. }
  pose proof (hypot_cos_atan (z / u) (r / G) HX) as C1. pose proof (hypot_sin_atan (z / u) (r / G) HX) as C2.
  rewrite H1, Rmult_1_l, <- HB in C1, C2. rewrite C1, C2. split; field; lra.
Qed.

Lemma K_form u : 0 <= u -> (a * hypot u E - b * u - E ^ 2) * (a * hypot u E + b * u + E ^ 2) = E ^ 2 * (u - b) ^ 2.
Proof.
  intros Hu. pose proof (hypot_pow2 u E) as HG. pose proof (E_sq e He) as HE. fold a b E in HE.
  replace ((a * hypot u E - b * u - E ^ 2) * (a * hypot u E + b * u + E ^ 2))
    with (a ^ 2 * hypot u E ^ 2 - (b * u + E ^ 2) ^ 2) by ring.
  rewrite HG. replace (a ^ 2) with (E ^ 2 + b ^ 2) by lra. ring.
Qed.

Lemma u_test x y z v : 0 < v -> 0 < you_u e x y z ->
  let q := (x ^ 2 + y ^ 2) / (v ^ 2 + E ^ 2) + z ^ 2 / v ^ 2 in
  (q <= 1 -> you_u e x y z <= v) /\ (1 <= q -> v <= you_u e x y z).
Proof.
  intros Hv Hu. cbv zeta. pose proof (u_quartic e x y z) as Q. cbv zeta in Q. fold E in Q.
  set (u := you_u e x y z) in *.
  pose proof (sq_nonneg E). pose proof (sq_nonneg z). assert (0 < v ^ 2) by (apply pow_lt; lra). assert (0 < u ^ 2) by (apply pow_lt; lra).
  set (t := x ^ 2 + y ^ 2 + z ^ 2 - E ^ 2) in *.
  assert (HT : 0 <= u ^ 2 - t).
  { apply Rmult_le_reg_r with (u ^ 2); [lra|]. rewrite Rmult_0_l. nra. }
  assert (Hq : (v ^ 2 + E ^ 2) * v ^ 2 * (1 - ((x ^ 2 + y ^ 2) / (v ^ 2 + E ^ 2) + z ^ 2 / v ^ 2))
     = (v ^ 2 - u ^ 2) * (v ^ 2 + (u ^ 2 - t))).
  { transitivity (v ^ 2 * v ^ 2 - t * v ^ 2 - E ^ 2 * z ^ 2).
    - unfold t. field. split; lra.
    - replace (E ^ 2 * z ^ 2) with (u ^ 2 * u ^ 2 - t * u ^ 2) by lra. ring. }
  set (q := (x ^ 2 + y ^ 2) / (v ^ 2 + E ^ 2) + z ^ 2 / v ^ 2) in *.
  assert (HA : 0 < (v ^ 2 + E ^ 2) * v ^ 2) by (apply Rmult_lt_0_compat; lra).
  assert (HBp : 0 < v ^ 2 + (u ^ 2 - t)) by lra.
  split; intros.
  - apply Rnot_lt_le. intros L. assert (v ^ 2 < u ^ 2) by nra.
    assert (0 <= (v ^ 2 + E ^ 2) * v ^ 2 * (1 - q)) by (apply Rmult_le_pos; lra).
    assert (0 < (u ^ 2 - v ^ 2) * (v ^ 2 + (u ^ 2 - t))) by (apply Rmult_lt_0_compat; lra). nra.
  - apply Rnot_lt_le. intros L. assert (u ^ 2 < v ^ 2) by nra.
    assert (0 <= (v ^ 2 + E ^ 2) * v ^ 2 * (q - 1)) by (apply Rmult_le_pos; lra).
    assert (0 < (v ^ 2 - u ^ 2) * (v ^ 2 + (u ^ 2 - t))) by (apply Rmult_lt_0_compat; lra). nra.
Qed.

(** The shift of the reproduced point, from the defect of the foot equation. *)
Lemma shift c s r z h :
  c ^ 2 + s ^ 2 = 1 ->
  let g := hypot (b * c) (a * s) in
  let n := b * c * (r - a * c) + a * s * (z - b * s) in
  let f := a * r * s - b * z * c - (a ^ 2 - b ^ 2) * (s * c) in
  h ^ 2 = (z - b * s) ^ 2 + (r - a * c) ^ 2 -> 0 <= h * n ->
  b <= g /\
  ((a * c + h * (b * c / g)) - r) ^ 2 + ((b * s + h * (a * s / g)) - z) ^ 2 <= 2 * (f / b) ^ 2.
Proof.
  intros Hcs g n f Hh Hn. pose proof Hb as Hb'. pose proof Ha as Ha'.
  pose proof (hypot_pow2 (b * c) (a * s)) as Hg2. fold g in Hg2.
  assert (Hgb : b <= g).
  { apply Rsqr_incr_0_var; [|apply hypot_nonneg]. rewrite !Rsqr_pow2, Hg2. pose proof (sq_nonneg s).
    assert (b ^ 2 <= a ^ 2) by nra. assert (b ^ 2 * s ^ 2 <= a ^ 2 * s ^ 2) by (apply Rmult_le_compat_r; lra).
    rewrite !Rpow_mult_distr. replace (c ^ 2) with (1 - s ^ 2) by lra. lra. }
  split; [exact Hgb|].
  assert (Hg : 0 < g) by lra.
  assert (Id : (a * c + h * (b * c / g) - r) ^ 2 + (b * s + h * (a * s / g) - z) ^ 2 = (h - n / g) ^ 2 + (f / g) ^ 2).
  { apply Rmult_eq_reg_r with (g ^ 2 * g ^ 2); [|apply Rmult_integral_contrapositive; split; apply pow_nonzero; lra].
    transitivity ((g ^ 2 * (a * c - r) ^ 2 + 2 * h * g * (b * c * (a * c - r)) + h ^ 2 * (b * c) ^ 2
       + g ^ 2 * (b * s - z) ^ 2 + 2 * h * g * (a * s * (b * s - z)) + h ^ 2 * (a * s) ^ 2) * g ^ 2); [field; lra|].
    transitivity ((h ^ 2 * g ^ 2 - 2 * h * g * n + (n ^ 2 + f ^ 2)) * g ^ 2); [|field; lra].
    f_equal. replace (n ^ 2 + f ^ 2) with (g ^ 2 * ((z - b * s) ^ 2 + (r - a * c) ^ 2)).
    - rewrite Hg2. unfold n. ring.
    - rewrite Hg2. unfold n, f. ring. }
  rewrite Id. clear Id.
  assert (Hs : h ^ 2 = (n / g) ^ 2 + (f / g) ^ 2).
  { rewrite Hh. apply Rmult_eq_reg_r with (g ^ 2); [|apply pow_nonzero; lra].
    transitivity (n ^ 2 + f ^ 2); [|field; lra]. rewrite Hg2. unfold n, f. ring. }
  assert (HN : 0 <= h * (n / g)).
  { unfold Rdiv. rewrite <- Rmult_assoc. apply Rmult_le_pos; [assumption|]. left. now apply Rinv_0_lt_compat. }
  set (m := n / g) in *.
  assert (HF : (f / g) ^ 2 <= (f / b) ^ 2).
  { unfold Rdiv. rewrite !Rpow_mult_distr. apply Rmult_le_compat_l; [apply sq_nonneg|].
    apply pow_incr. split; [left; now apply Rinv_0_lt_compat|]. apply Rinv_le_contravar; lra. }
  assert ((h - m) ^ 2 <= (f / g) ^ 2); [|lra].
  assert (m ^ 2 <= h ^ 2) by (pose proof (sq_nonneg (f / g)); lra).
  assert (m ^ 2 <= h * m); [|nra].
  apply Rsqr_incr_0_var; [|assumption]. rewrite !Rsqr_pow2.
  replace ((m ^ 2) ^ 2) with (m ^ 2 * m ^ 2) by ring. replace ((h * m) ^ 2) with (h ^ 2 * m ^ 2) by ring.
  apply Rmult_le_compat_r; [apply sq_nonneg|assumption].
Qed.

Lemma you_beta_exact x y z : you_u e x y z <> 0 -> hypot x y <> 0 ->
  let u := you_u e x y z in let G := hypot u E in let t := beta0 e x y z in
  let K := a * G - b * u - E ^ 2 in let D := a * G - E ^ 2 * cos t ^ 2 in
  0 < u /\ 0 <= K /\ 0 < D /\ K <= D /\ you_beta e x y z = t - K / D * (sin t * cos t).
Proof.
  intros Hu Hh. cbv zeta. pose proof (u_nonneg e x y z) as Hun.
  set (u := you_u e x y z) in *. assert (Hup : 0 < u) by lra.
  set (t := beta0 e x y z).
  pose proof (K_nonneg e He u (Rlt_le _ _ Hup)) as HK.
  assert (Hc : 0 < cos t) by (apply cos_atan_pos).
  pose proof (cos_le1 t) as Hc1.
  pose proof (ahuE_gt e He u (cos t) Hup Hc1) as HD. fold a b E in HK, HD.
  repeat split; try lra.
  - pose proof (sq_nonneg E). pose proof Hb. assert (E ^ 2 * cos t ^ 2 <= E ^ 2) by nra. nra.
  - change (you_beta e x y z) with (t + ((b * u - a * hypot u E + E ^ 2) * sin t)
      / (a * hypot u E * 1 / cos t - E ^ 2 * cos t)).
    assert (Hrw : a * hypot u E * 1 / cos t - E ^ 2 * cos t = (a * hypot u E - E ^ 2 * cos t ^ 2) / cos t).
    { field. lra. }
    rewrite Hrw. set (D := a * hypot u E - E ^ 2 * cos t ^ 2) in *. clearbody D. field. split; lra.
Qed.

(** beta and beta0 are on the same side of the equator *)
Lemma same_side x y z : you_u e x y z <> 0 -> hypot x y <> 0 ->
  0 <= sin (you_beta e x y z) * sin (beta0 e x y z) /\ 0 < cos (you_beta e x y z) /\ 0 < cos (beta0 e x y z).
Proof.
  intros Hu Hh. pose proof PI_RGT_0.
  assert (A : forall z, you_u e x y z <> 0 -> 0 <= z ->
     0 <= sin (you_beta e x y z) * sin (beta0 e x y z) /\ 0 < cos (you_beta e x y z) /\ 0 < cos (beta0 e x y z)).
  { intros z' Hu' Hz. destruct (you_beta_nonneg e He x y z' Hu' Hh Hz) as [[B1 B2] B3].
    split; [apply Rmult_le_pos; apply sin_ge_0; lra|]. split; apply cos_gt_0; lra. }
  destruct (Rle_lt_dec 0 z) as [Hz|Hz]; [now apply A|].
  apply neg_z in Hz. destruct Hz as (z' & -> & Hz). rewrite u_mirror in Hu.
  rewrite you_beta_mirror, beta0_mirror, !sin_neg, !cos_neg.
  replace (- sin (you_beta e x y z') * - sin (beta0 e x y z')) with (sin (you_beta e x y z') * sin (beta0 e x y z')) by ring.
  apply A; lra.
Qed.

Lemma G_facts u : 0 < u -> let G := hypot u E in
  0 < G /\ G ^ 2 = u ^ 2 + E ^ 2 /\ u <= G /\ (b <= u -> a <= G /\ b * G <= a * u) /\ (u <= b -> G <= a /\ a * u <= b * G).
Proof.
  intros Hu. cbv zeta. pose proof (hypot_pow2 u E) as HG. assert (HGp : 0 < hypot u E) by (apply hypot_pos; left; lra).
  set (G := hypot u E) in *. pose proof (E_sq e He) as HE. fold a b E in HE. pose proof Hb as Hb'. pose proof Ha as Ha'.
  pose proof (sq_nonneg E). repeat split; try lra; try nra.
  - apply Rsqr_incr_0_var; [|nra]. rewrite !Rsqr_pow2, !Rpow_mult_distr, HG.
    assert (b ^ 2 <= u ^ 2) by nra. nra.
  - apply Rsqr_incr_0_var; [|nra]. rewrite !Rsqr_pow2, !Rpow_mult_distr, HG.
    assert (u ^ 2 <= b ^ 2) by nra. nra.
Qed.

Hypothesis Hflat : a ^ 2 <= 2 * b ^ 2.

Lemma E2b : 0 <= E ^ 2 <= b ^ 2.
Proof. pose proof (E_sq e He) as HE. fold a b E in HE. pose proof (sq_nonneg E). lra. Qed.

(** The signed altitude is on the right side of the surface. *)
Lemma alt_side x y z : you_u e x y z <> 0 -> hypot x y <> 0 ->
  let B := you_beta e x y z in
  let n := b * cos B * (hypot x y - a * cos B) + a * sin B * (z - b * sin B) in
  0 <= alt_of_beta e x y z B (cos B) * n.
Proof.
  intros Hu Hh. cbv zeta. destruct (polar0 x y z Hu Hh) as [P1 P2].
  destruct (you_beta_exact x y z Hu Hh) as (Hup & HK & HD & HKD & HB). cbv zeta in *.
  destruct (same_side x y z Hu Hh) as (S1 & S2 & S3).
  pose proof (G_facts _ Hup) as (HG0 & HG & HuG & HGo & HGi). cbv zeta in *.
  pose proof (K_form _ (Rlt_le _ _ Hup)) as KF.
  pose proof (u_test x y z b (proj1 He) Hup) as [U1 U2]. cbv zeta in *.
  pose proof (E_sq e He) as HE. fold a b E in HE. pose proof E2b as HEb. pose proof Hb as Hb'. pose proof Ha as Ha'.
  assert (HQ : x ^ 2 / a ^ 2 + y ^ 2 / a ^ 2 + z ^ 2 / b ^ 2 = (x ^ 2 + y ^ 2) / (b ^ 2 + E ^ 2) + z ^ 2 / b ^ 2).
  { rewrite HE. replace (b ^ 2 + (a ^ 2 - b ^ 2)) with (a ^ 2) by ring. field. split; lra. }
  set (u := you_u e x y z) in *. set (G := hypot u E) in *. set (t := beta0 e x y z) in *.
  set (B := you_beta e x y z) in *.
  assert (Hn : b * cos B * (hypot x y - a * cos B) + a * sin B * (z - b * sin B)
     = b * G * (cos B * cos t) + a * u * (sin B * sin t) - a * b).
  { rewrite P1, P2. pose proof (sin_pow2 B) as X. ring_simplify. rewrite X. ring. }
  rewrite Hn. clear Hn.
  assert (Hcd : cos B * cos t + sin B * sin t = cos (B - t)) by (rewrite cos_minus; ring).
  assert (HC : cos B * cos t = cos (B - t) - sin B * sin t) by lra.
  unfold alt_of_beta, inside_dec. fold a b. rewrite HQ.
  pose proof (hypot_nonneg (z - b * sin B) (hypot x y - a * cos B)) as Hal.
  destruct (Rlt_dec _ 1) as [Hin|Hout].
  - specialize (U1 (Rlt_le _ _ Hin)). destruct (HGi U1) as [G1 G2].
    assert (b * G * (cos B * cos t) + a * u * (sin B * sin t) <= b * G * cos (B - t)).
    { rewrite HC. assert (a * u * (sin B * sin t) <= b * G * (sin B * sin t)) by (apply Rmult_le_compat_r; lra). lra. }
    pose proof (COS_bound (B - t)).
    assert (b * G * cos (B - t) <= b * a) by (apply Rle_trans with (b * G * 1); [apply Rmult_le_compat_l; nra|nra]).
    nra.
  - apply Rnot_lt_le in Hout. specialize (U2 Hout). destruct (HGo U2) as [G1 G2].
    apply Rmult_le_pos; [assumption|].
    assert (b * G * cos (B - t) <= b * G * (cos B * cos t) + a * u * (sin B * sin t)).
    { rewrite HC. assert (b * G * (sin B * sin t) <= a * u * (sin B * sin t)) by (apply Rmult_le_compat_r; lra). lra. }
    set (K := a * G - b * u - E ^ 2) in *. set (D := a * G - E ^ 2 * cos t ^ 2) in *.
    assert (HDl : G * b ^ 2 <= a * D).
    { unfold D. pose proof (cos_le1 t). assert (E ^ 2 * cos t ^ 2 <= E ^ 2) by nra.
      assert (a * (a * G - E ^ 2) <= a * (a * G - E ^ 2 * cos t ^ 2)) by (apply Rmult_le_compat_l; lra).
      assert (G * b ^ 2 <= a * (a * G - E ^ 2)); [|lra]. rewrite HE. nra. }
    assert (Hk0 : 0 <= K / D <= 1).
    { split; [apply Rmult_le_pos; [lra|left; now apply Rinv_0_lt_compat]|].
      apply Rmult_le_reg_r with D; [assumption|]. unfold Rdiv. rewrite Rmult_assoc, Rinv_l; lra. }
    assert (HkG : K / D * G ^ 2 <= (u - b) ^ 2).
    { assert (K * (a * G) <= E ^ 2 * (u - b) ^ 2) by (rewrite <- KF; apply Rmult_le_compat_l; nra).
      assert (X : K * (a * G) * (G * b ^ 2) <= E ^ 2 * (u - b) ^ 2 * (a * D)).
      { apply Rmult_le_compat; try assumption; apply Rmult_le_pos; nra. }
      assert (Y : E ^ 2 * (u - b) ^ 2 * (a * D) <= b ^ 2 * (u - b) ^ 2 * (a * D)).
      { apply Rmult_le_compat_r; [nra|]. apply Rmult_le_compat_r; [apply sq_nonneg|lra]. }
      apply Rmult_le_reg_r with (D * (a * b ^ 2)); [apply Rmult_lt_0_compat; [lra|]; apply Rmult_lt_0_compat; [lra|apply pow_lt; lra]|].
      replace (K / D * G ^ 2 * (D * (a * b ^ 2))) with (K * (a * G) * (G * b ^ 2)) by (field; lra). nra. }
    set (k := K / D) in *.
    pose proof (sc_half t) as Hsc. set (p := sin t * cos t) in *.
    assert (HBt : B - t = - (k * p)) by (rewrite HB; ring).
    assert (Hd : Rabs (k * p) <= k / 2).
    { rewrite Rabs_mult, (Rabs_pos_eq k) by lra. nra. }
    destruct (taylor_small (k * p)) as (_ & _ & T3 & _); [lra|].
    assert (Hdd : (k * p) ^ 2 <= k ^ 2 / 4) by (rewrite <- pow2_abs; pose proof (Rabs_pos (k * p)); nra).
    rewrite HBt, cos_neg in H.
    assert (k ^ 2 <= k) by nra.
    assert (HG1 : a <= G * cos (k * p)); [|nra].
    assert (0 <= 1 - k ^ 2 / 8) by nra.
    apply Rle_trans with (G * (1 - k ^ 2 / 8)); [|apply Rmult_le_compat_l; lra].
    apply Rsqr_incr_0_var; [|apply Rmult_le_pos; lra]. rewrite !Rsqr_pow2, Rpow_mult_distr.
    assert (1 - k ^ 2 / 4 <= (1 - k ^ 2 / 8) ^ 2) by nra.
    apply Rle_trans with (G ^ 2 * (1 - k ^ 2 / 4)); [|apply Rmult_le_compat_l; [apply sq_nonneg|assumption]].
    assert (G ^ 2 * k ^ 2 <= (u - b) ^ 2) by (apply Rle_trans with (G ^ 2 * k); [apply Rmult_le_compat_l; [apply sq_nonneg|assumption]|lra]).
    rewrite HG in *. nra.
Qed.

(** The foot defect at the computed reduced latitude, outside. *)
Lemma foot_out x y z : you_u e x y z <> 0 -> hypot x y <> 0 ->
  let u := you_u e x y z in b <= u ->
  let F := Rabs (foot a b (hypot x y) z (you_beta e x y z)) in
  F <= 1 / 6 * ((E ^ 2 / a ^ 2) ^ 2 * (u - b) ^ 4 / b ^ 2) /\
  F <= 1 / 6 * (a * (E ^ 2) ^ 2 * (u - b) / b ^ 4).
Proof.
  intros Hu Hh u Hub F. destruct (polar0 x y z Hu Hh) as [P1 P2].
  destruct (you_beta_exact x y z Hu Hh) as (Hup & HK & HD & HKD & HB). cbv zeta in *. fold u in Hup, HK, HD, HKD, HB, P1, P2.
  pose proof (G_facts _ Hup) as (HG0 & HG & HuG & HGo & _). cbv zeta in *. destruct (HGo Hub) as [G1 G2].
  pose proof (K_form _ (Rlt_le _ _ Hup)) as KF.
  pose proof (E_sq e He) as HE. fold a b E in HE. pose proof E2b as HEb. pose proof Hb as Hb'. pose proof Ha as Ha'.
  unfold F. set (t := beta0 e x y z) in *. rewrite HB, P1.
  pose proof (foot_step a b Hb' Ha' (hypot u E) u t) as FS. cbv zeta in FS. rewrite <- HE in FS. specialize (FS HK HD HKD).
  set (G := hypot u E) in *. set (K := a * G - b * u - E ^ 2) in *. set (D := a * G - E ^ 2 * cos t ^ 2) in *.
  pose proof (cos_le1 t). assert (E ^ 2 * cos t ^ 2 <= E ^ 2) by nra.
  assert (HDl : G * b ^ 2 <= a * D).
  { unfold D. assert (a * (a * G - E ^ 2) <= a * (a * G - E ^ 2 * cos t ^ 2)) by (apply Rmult_le_compat_l; lra).
    assert (G * b ^ 2 <= a * (a * G - E ^ 2)); [|lra]. rewrite HE. nra. }
  assert (HDb : b ^ 2 <= D) by (unfold D; nra).
  assert (HED : E ^ 2 / D <= 1).
  { apply Rmult_le_reg_r with D; [assumption|]. unfold Rdiv. rewrite Rmult_assoc, Rinv_l; lra. }
  assert (HKK : 0 <= K ^ 2 / D) by (apply Rmult_le_pos; [apply sq_nonneg|left; now apply Rinv_0_lt_compat]).
  assert (FS' : Rabs (foot a b (G * cos t) (u * sin t) (t - K / D * (sin t * cos t))) <= 2 / 3 * (K ^ 2 / D)) by nra.
  clear FS. rewrite <- P2 in FS'. assert (0 < b ^ 2) by (apply pow_lt; lra). assert (0 < a ^ 2) by (apply pow_lt; lra).
  assert (HDi : 0 < / D) by now apply Rinv_0_lt_compat.
  split; (eapply Rle_trans; [exact FS'|]).
  - assert (Kn : K <= E ^ 2 / a ^ 2 * (u - b) ^ 2 / 2).
    { apply Rmult_le_reg_r with (2 * a ^ 2); [lra|].
      replace (E ^ 2 / a ^ 2 * (u - b) ^ 2 / 2 * (2 * a ^ 2)) with (E ^ 2 * (u - b) ^ 2) by (field; lra).
      rewrite <- KF. apply Rmult_le_compat_l; [assumption|]. nra. }
    assert (K ^ 2 <= (E ^ 2 / a ^ 2 * (u - b) ^ 2 / 2) ^ 2) by (apply pow_incr; lra).
    assert (K ^ 2 / D <= (E ^ 2 / a ^ 2 * (u - b) ^ 2 / 2) ^ 2 / b ^ 2).
    { unfold Rdiv. apply Rmult_le_compat; [apply sq_nonneg|lra|exact H3|apply Rinv_le_contravar; lra]. }
    replace (1 / 6 * ((E ^ 2 / a ^ 2) ^ 2 * (u - b) ^ 4 / b ^ 2)) with (2 / 3 * ((E ^ 2 / a ^ 2 * (u - b) ^ 2 / 2) ^ 2 / b ^ 2)) by (field; lra).
    lra.
  - assert (Kn : K * (2 * b * u) <= E ^ 2 * (u - b) ^ 2).
    { rewrite <- KF. apply Rmult_le_compat_l; [assumption|]. assert (b * u <= a * G) by nra. nra. }
    assert (Ku : (u - b) ^ 2 <= u * (u - b)) by nra.
    assert (Kn2 : 2 * b * K <= E ^ 2 * (u - b)).
    { apply Rmult_le_reg_r with u; [lra|]. apply Rle_trans with (E ^ 2 * (u - b) ^ 2); [lra|].
      apply Rle_trans with (E ^ 2 * (u * (u - b))); [apply Rmult_le_compat_l; lra|]. lra. }
    assert (HDu : u * b ^ 2 <= a * D) by nra.
    assert (KD : K ^ 2 / D * (4 * b ^ 4) <= a * (E ^ 2) ^ 2 * (u - b)).
    { apply Rmult_le_reg_r with (D * u); [apply Rmult_lt_0_compat; lra|].
      replace (K ^ 2 / D * (4 * b ^ 4) * (D * u)) with ((2 * b * K) * (2 * b * K) * (u * b ^ 2)) by (field; lra).
      apply Rle_trans with ((E ^ 2 * (u - b)) * (E ^ 2 * (u - b)) * (a * D)).
      - assert (0 <= 2 * b * K) by (apply Rmult_le_pos; lra).
        apply Rmult_le_compat; try assumption; [apply Rmult_le_pos; lra|nra|]. apply Rmult_le_compat; lra.
      - replace (E ^ 2 * (u - b) * (E ^ 2 * (u - b)) * (a * D)) with (a * (E ^ 2) ^ 2 * D * (u - b) ^ 2) by ring.
        replace (a * (E ^ 2) ^ 2 * (u - b) * (D * u)) with (a * (E ^ 2) ^ 2 * D * (u * (u - b))) by ring.
        apply Rmult_le_compat_l; [|assumption]. apply Rmult_le_pos; [apply Rmult_le_pos; [lra|apply sq_nonneg]|lra]. }
    apply Rmult_le_reg_r with (6 * b ^ 4); [apply Rmult_lt_0_compat; [lra|apply pow_lt; lra]|].
    replace (1 / 6 * (a * (E ^ 2) ^ 2 * (u - b) / b ^ 4) * (6 * b ^ 4)) with (a * (E ^ 2) ^ 2 * (u - b)) by (field; lra).
    lra.
Qed.

(** ... and inside, not too deep. *)
Lemma foot_in x y z : you_u e x y z <> 0 -> hypot x y <> 0 ->
  let u := you_u e x y z in 4 / 5 * b <= u <= b ->
  Rabs (foot a b (hypot x y) z (you_beta e x y z)) <= 6 / 10 * ((E ^ 2 / a ^ 2) ^ 2 * (u - b) ^ 4 / b ^ 2).
Proof.
  intros Hu Hh u [Hul Hub]. destruct (polar0 x y z Hu Hh) as [P1 P2].
  destruct (you_beta_exact x y z Hu Hh) as (Hup & HK & HD & HKD & HB). cbv zeta in *. fold u in Hup, HK, HD, HKD, HB, P1, P2.
  pose proof (G_facts _ Hup) as (HG0 & HG & HuG & _ & HGi). cbv zeta in *. destruct (HGi Hub) as [G1 G2].
  pose proof (K_form _ (Rlt_le _ _ Hup)) as KF.
  pose proof (E_sq e He) as HE. fold a b E in HE. pose proof E2b as HEb. pose proof Hb as Hb'. pose proof Ha as Ha'.
  set (t := beta0 e x y z) in *. rewrite HB, P1.
  pose proof (foot_step a b Hb' Ha' (hypot u E) u t) as FS. cbv zeta in FS. rewrite <- HE in FS. specialize (FS HK HD HKD).
  set (G := hypot u E) in *. set (K := a * G - b * u - E ^ 2) in *. set (D := a * G - E ^ 2 * cos t ^ 2) in *.
  pose proof (cos_le1 t). assert (E ^ 2 * cos t ^ 2 <= E ^ 2) by nra.
  assert (HAG : G ^ 2 <= a * G) by nra.
  assert (Hu2 : 64 / 100 * b ^ 2 <= u ^ 2) by nra.
  assert (HDb : 64 / 100 * b ^ 2 <= D) by (unfold D; lra).
  assert (HED : E ^ 2 / D <= 100 / 64).
  { apply Rmult_le_reg_r with D; [assumption|]. unfold Rdiv. rewrite Rmult_assoc, Rinv_l; lra. }
  assert (HKK : 0 <= K ^ 2 / D) by (apply Rmult_le_pos; [apply sq_nonneg|left; now apply Rinv_0_lt_compat]).
  assert (FS' : Rabs (foot a b (G * cos t) (u * sin t) (t - K / D * (sin t * cos t))) <= 795 / 1000 * (K ^ 2 / D)) by nra.
  clear FS. rewrite <- P2 in FS'. assert (0 < b ^ 2) by (apply pow_lt; lra). assert (0 < a ^ 2) by (apply pow_lt; lra).
  eapply Rle_trans; [exact FS'|].
  assert (Kn : K <= E ^ 2 / a ^ 2 * (u - b) ^ 2 / (144 / 100)).
  { apply Rmult_le_reg_r with (144 / 100 * a ^ 2); [lra|].
    replace (E ^ 2 / a ^ 2 * (u - b) ^ 2 / (144 / 100) * (144 / 100 * a ^ 2)) with (E ^ 2 * (u - b) ^ 2) by (field; lra).
    rewrite <- KF. apply Rmult_le_compat_l; [assumption|]. assert (4 / 5 * b ^ 2 <= b * u) by nra. 
    assert (b ^ 2 <= a ^ 2) by nra. lra. }
  assert (K ^ 2 <= (E ^ 2 / a ^ 2 * (u - b) ^ 2 / (144 / 100)) ^ 2) by (apply pow_incr; lra).
  assert (K ^ 2 / D <= (E ^ 2 / a ^ 2 * (u - b) ^ 2 / (144 / 100)) ^ 2 / (64 / 100 * b ^ 2)).
  { unfold Rdiv at 1 2. apply Rmult_le_compat; [apply sq_nonneg|left; now apply Rinv_0_lt_compat|exact H3|apply Rinv_le_contravar; lra]. }
  replace ((E ^ 2 / a ^ 2 * (u - b) ^ 2 / (144 / 100)) ^ 2 / (64 / 100 * b ^ 2))
    with (/ (144 / 100) ^ 2 * / (64 / 100) * ((E ^ 2 / a ^ 2) ^ 2 * (u - b) ^ 4 / b ^ 2)) in H4 by (field; lra).
  assert (0 <= (E ^ 2 / a ^ 2) ^ 2 * (u - b) ^ 4 / b ^ 2).
  { apply Rmult_le_pos; [|left; now apply Rinv_0_lt_compat]. replace ((u - b) ^ 4) with (((u - b) ^ 2) ^ 2) by ring.
    apply Rmult_le_pos; apply sq_nonneg. }
  lra.
Qed.

(** Where the point comes from: latitude p, height h. *)
Definition you_err (h : R) : R :=
  (a / b) ^ 2 * ((a ^ 2 - b ^ 2) / b ^ 2) ^ 2 *
  (if Rle_dec 0 h then h / 4 * Rmin 1 ((h / b) ^ 3) else 2 * (h ^ 4 / b ^ 3)).

Lemma foot_height x y z p h : - PI / 2 < p < PI / 2 -> - (b / 8) <= h ->
  let w := hypot (a * cos p) (b * sin p) in
  hypot x y = (a ^ 2 / w + h) * cos p -> z = (b ^ 2 / w + h) * sin p ->
  you_u e x y z <> 0 /\ hypot x y <> 0 /\ 82 / 100 * b ^ 2 <= b ^ 2 + h * w /\
  (0 <= h -> b ^ 2 <= b ^ 2 + h * w) /\
  Rabs (foot a b (hypot x y) z (you_beta e x y z)) <= (if Rle_dec 0 h then 2 / 3 else 48 / 100) * b * you_err h.
Proof.
  intros Hp Hh w Hr Hz. pose proof Hb as Hb'. pose proof Ha as Ha'.
  pose proof (E_sq e He) as HE. fold a b E in HE. pose proof E2b as HEb.
  pose proof (hypot_pow2 (a * cos p) (b * sin p)) as Hw2. fold w in Hw2.
  assert (Hw0 : 0 <= w) by apply hypot_nonneg.
  pose proof (sin_pow2 p) as Hs2. pose proof (sq_nonneg (cos p)) as Hc2. pose proof (sq_nonneg (sin p)) as Hss.
  assert (HbA : b ^ 2 <= a ^ 2) by nra.
  rewrite !Rpow_mult_distr in Hw2.
  assert (Hwb : b <= w) by (apply Rsqr_incr_0_var; [|lra]; rewrite !Rsqr_pow2, Hw2, Hs2; nra).
  assert (Hwa : w <= a) by (apply Rsqr_incr_0_var; [|lra]; rewrite !Rsqr_pow2, Hw2, Hs2; nra).
  assert (Hw : 0 < w) by lra.
  assert (Hc : 0 < cos p) by (apply cos_gt_0; lra).
  assert (Hab : a <= 1415 / 1000 * b) by (apply Rsqr_incr_0_var; [|lra]; rewrite !Rsqr_pow2; nra).
  assert (Hhw : - (18 / 100 * b ^ 2) <= h * w).
  { destruct (Rle_lt_dec 0 h); [assert (0 <= h * w) by (apply Rmult_le_pos; lra); nra|]. nra. }
  (* r = ct * P, z = st * Q *)
  set (ct := a * cos p / w). set (st := b * sin p / w).
  assert (Hcst : ct ^ 2 + st ^ 2 = 1).
  { unfold ct, st. transitivity ((a ^ 2 * cos p ^ 2 + b ^ 2 * sin p ^ 2) / w ^ 2); [field; lra|]. rewrite <- Hw2. field. lra. }
  assert (Hct : 0 < ct) by (unfold ct; apply Rdiv_lt_0_compat; [apply Rmult_lt_0_compat; lra|lra]).
  set (P := a + h * w / a). set (Q := b + h * w / b).
  assert (HrP : hypot x y = ct * P) by (rewrite Hr; unfold ct, P; field; lra).
  assert (HzQ : z = st * Q) by (rewrite Hz; unfold st, Q; field; lra).
  assert (HQ : 82 / 100 * b <= Q).
  { apply Rmult_le_reg_r with b; [assumption|]. unfold Q. replace ((b + h * w / b) * b) with (b ^ 2 + h * w) by (field; lra). lra. }
  assert (HP : 82 / 100 * a <= P).
  { apply Rmult_le_reg_r with a; [lra|]. unfold P. replace ((a + h * w / a) * a) with (a ^ 2 + h * w) by (field; lra). nra. }
  assert (HPQ : P ^ 2 <= Q ^ 2 + E ^ 2).
  { rewrite HE. unfold P, Q.
    assert ((h * w / a) ^ 2 <= (h * w / b) ^ 2).
    { unfold Rdiv. rewrite !(Rpow_mult_distr (h * w)). apply Rmult_le_compat_l; [apply sq_nonneg|].
      apply pow_incr. split; [left; apply Rinv_0_lt_compat; lra|apply Rinv_le_contravar; lra]. }
    replace ((a + h * w / a) ^ 2) with (a ^ 2 + 2 * (h * w) + (h * w / a) ^ 2) by (field; lra).
    replace ((b + h * w / b) ^ 2) with (b ^ 2 + 2 * (h * w) + (h * w / b) ^ 2) by (field; lra). lra. }
  pose proof (hypot_pow2 x y) as Hxy.
  assert (Hr0 : 0 < hypot x y) by (rewrite HrP; apply Rmult_lt_0_compat; lra).
  assert (Hu0 : you_u e x y z <> 0).
  { intros H0. pose proof (u_quartic e x y z) as U4. cbv zeta in U4. pose proof (u_sq e x y z) as U2. cbv zeta in U2.
    rewrite H0 in U4, U2. fold E in U4, U2.
    pose proof (hypot_nonneg (x ^ 2 + y ^ 2 + z ^ 2 - E ^ 2) (2 * E * z)).
    assert (Ht : x ^ 2 + y ^ 2 + z ^ 2 - E ^ 2 <= 0) by lra.
    assert (Ez : E ^ 2 * z ^ 2 = 0) by lra.
    assert (0 < hypot x y ^ 2) by (apply pow_lt; lra).
    destruct (Rmult_integral _ _ Ez) as [Hz0|Hz0]; [pose proof (sq_nonneg z); lra|].
    rewrite Hz0, <- Hxy, HrP in Ht.
    assert (St0 : st = 0).
    { rewrite HzQ in Hz0. assert (HH : st * Q = 0) by nra. destruct (Rmult_integral _ _ HH); lra. }
    assert (Ct0 : ct ^ 2 = 1) by (rewrite <- Hcst, St0; ring).
    rewrite Rpow_mult_distr, Ct0 in Ht. assert (P ^ 2 <= E ^ 2) by lra. nra. }
  pose proof (u_nonneg e x y z) as Hu1. assert (Hup : 0 < you_u e x y z) by lra.
  set (u := you_u e x y z) in *.
  assert (HuQ : u <= Q).
  { apply (proj1 (u_test x y z Q ltac:(lra) Hup)). rewrite <- Hxy, HrP, HzQ.
    assert (0 < Q ^ 2) by (apply pow_lt; lra). assert (0 <= E ^ 2) by apply sq_nonneg.
    assert ((st * Q) ^ 2 / Q ^ 2 = st ^ 2) as -> by (field; lra).
    assert ((ct * P) ^ 2 / (Q ^ 2 + E ^ 2) <= ct ^ 2); [|lra].
    apply Rmult_le_reg_r with (Q ^ 2 + E ^ 2); [lra|]. unfold Rdiv. rewrite Rmult_assoc, Rinv_l, Rmult_1_r by lra.
    rewrite Rpow_mult_distr. apply Rmult_le_compat_l; [apply sq_nonneg|assumption]. }
  split; [assumption|]. split; [lra|]. split; [lra|].
  split; [intros; assert (0 <= h * w) by (apply Rmult_le_pos; lra); lra|].
  assert (Hb3 : 0 < b ^ 3) by (apply pow_lt; lra). assert (Hb2 : 0 < b ^ 2) by (apply pow_lt; lra). assert (Ha2 : 0 < a ^ 2) by (apply pow_lt; lra).
  assert (Hab1 : 1 <= a / b) by (apply Rmult_le_reg_r with b; [lra|]; unfold Rdiv; rewrite Rmult_assoc, Rinv_l; lra).
  assert (He4 : 0 <= (E ^ 2 / a ^ 2) ^ 2) by apply sq_nonneg.
  assert (Hk : forall m, (a / b) ^ 2 * ((a ^ 2 - b ^ 2) / b ^ 2) ^ 2 * m = (E ^ 2 / a ^ 2) ^ 2 * (a / b) ^ 6 * m).
  { intros m. rewrite <- HE. field. split; lra. }
  assert (Hab4 : (a / b) ^ 4 <= (a / b) ^ 6) by (apply Rle_pow; [lra|lia]).
  assert (Hab5 : (a / b) ^ 5 * (a / b) = (a / b) ^ 6) by ring.
  unfold you_err. rewrite Hk. destruct (Rle_dec 0 h) as [Hh0|Hh0].
  - (* outside *)
    assert (Hbu : b <= u).
    { apply (proj2 (u_test x y z b Hb' Hup)). rewrite HE.
      replace (b ^ 2 + (a ^ 2 - b ^ 2)) with (a ^ 2) by ring. rewrite <- Hxy, HrP, HzQ.
      assert (a <= P) by (unfold P; assert (0 <= h * w / a) by (repeat apply Rmult_le_pos; try lra; left; apply Rinv_0_lt_compat; lra); lra).
      assert (b <= Q) by (unfold Q; assert (0 <= h * w / b) by (repeat apply Rmult_le_pos; try lra; left; apply Rinv_0_lt_compat; lra); lra).
      assert (ct ^ 2 <= (ct * P) ^ 2 / a ^ 2).
      { apply Rmult_le_reg_r with (a ^ 2); [lra|]. unfold Rdiv. rewrite Rmult_assoc, Rinv_l, Rmult_1_r, Rpow_mult_distr by lra.
        apply Rmult_le_compat_l; [apply sq_nonneg|]. apply pow_incr; lra. }
      assert (st ^ 2 <= (st * Q) ^ 2 / b ^ 2).
      { apply Rmult_le_reg_r with (b ^ 2); [lra|]. unfold Rdiv. rewrite Rmult_assoc, Rinv_l, Rmult_1_r, Rpow_mult_distr by lra.
        apply Rmult_le_compat_l; [apply sq_nonneg|]. apply pow_incr; lra. }
      lra. }
    destruct (foot_out x y z Hu0 ltac:(lra) Hbu) as [F1 F2]. fold u in F1, F2. cbv zeta in F1, F2.
    assert (Hub : 0 <= u - b <= a / b * h).
    { split; [lra|]. apply Rle_trans with (h * w / b); [unfold Q in HuQ; lra|].
      replace (a / b * h) with (h * a / b) by (field; lra). unfold Rdiv. apply Rmult_le_compat_r; [left; now apply Rinv_0_lt_compat|].
      apply Rmult_le_compat_l; lra. }
    set (F := Rabs _) in *. set (Z := (E ^ 2 / a ^ 2) ^ 2) in *.
    assert (N1 : F <= 2 / 3 * b * (Z * (a / b) ^ 6 * (h / 4 * (h / b) ^ 3))).
    { eapply Rle_trans; [exact F1|].
      replace (2 / 3 * b * (Z * (a / b) ^ 6 * (h / 4 * (h / b) ^ 3))) with (1 / 6 * (Z * ((a / b) ^ 6 * h ^ 4) / b ^ 2)) by (field; lra).
      apply Rmult_le_compat_l; [lra|]. unfold Rdiv at 1 2. apply Rmult_le_compat_r; [left; now apply Rinv_0_lt_compat|].
      apply Rmult_le_compat_l; [assumption|]. apply Rle_trans with ((a / b * h) ^ 4); [apply pow_incr; lra|].
      rewrite Rpow_mult_distr. apply Rmult_le_compat_r; [apply pow_le; lra|assumption]. }
    assert (N2 : F <= 2 / 3 * b * (Z * (a / b) ^ 6 * (h / 4 * 1))).
    { eapply Rle_trans; [exact F2|].
      replace (2 / 3 * b * (Z * (a / b) ^ 6 * (h / 4 * 1))) with (1 / 6 * (a * (E ^ 2) ^ 2 * (a / b * h) / b ^ 4)) by (unfold Z; field; lra).
      apply Rmult_le_compat_l; [lra|]. unfold Rdiv at 1 2. apply Rmult_le_compat_r; [left; apply Rinv_0_lt_compat, pow_lt; lra|].
      apply Rmult_le_compat_l; [apply Rmult_le_pos; [lra|apply sq_nonneg]|lra]. }
    unfold Rmin. destruct (Rle_dec 1 _); assumption.
  - (* inside *)
    apply Rnot_le_lt in Hh0.
    assert (HQb : Q <= b).
    { unfold Q. assert (h * w / b <= 0); [|lra]. apply Rmult_le_reg_r with b; [lra|]. unfold Rdiv. rewrite Rmult_assoc, Rinv_l, Rmult_0_l by lra. nra. }
    assert (HP2 : 2 * (h * w) <= u ^ 2 - b ^ 2).
    { destruct (Rle_lt_dec (P ^ 2) (E ^ 2)) as [|HPE]; [pose proof (sq_nonneg u); unfold P in *;
        assert (a ^ 2 + 2 * (h * w) <= (a + h * w / a) ^ 2) by (replace ((a + h * w / a) ^ 2) with (a ^ 2 + 2 * (h * w) + (h * w / a) ^ 2) by (field; lra); pose proof (sq_nonneg (h * w / a)); lra); lra|].
      set (v := sqrt (P ^ 2 - E ^ 2)). assert (Hv : 0 < v) by (apply sqrt_lt_R0; lra).
      assert (Hv2 : v ^ 2 = P ^ 2 - E ^ 2) by (apply pow2_sqrt'; lra).
      assert (Hvu : v <= u).
      { apply (proj2 (u_test x y z v Hv Hup)). rewrite Hv2, <- Hxy, HrP, HzQ. replace (P ^ 2 - E ^ 2 + E ^ 2) with (P ^ 2) by ring.
        replace ((ct * P) ^ 2 / P ^ 2) with (ct ^ 2) by (field; lra).
        assert (st ^ 2 <= (st * Q) ^ 2 / (P ^ 2 - E ^ 2)); [|lra].
        apply Rmult_le_reg_r with (P ^ 2 - E ^ 2); [lra|]. unfold Rdiv. rewrite Rmult_assoc, Rinv_l, Rmult_1_r, Rpow_mult_distr by lra.
        apply Rmult_le_compat_l; [apply sq_nonneg|lra]. }
      assert (v ^ 2 <= u ^ 2) by (apply pow_incr; lra).
      assert (a ^ 2 + 2 * (h * w) <= P ^ 2); [|lra]. unfold P.
      replace ((a + h * w / a) ^ 2) with (a ^ 2 + 2 * (h * w) + (h * w / a) ^ 2) by (field; lra). pose proof (sq_nonneg (h * w / a)). lra. }
    assert (Hu8 : 4 / 5 * b <= u).
    { apply Rsqr_incr_0_var; [|lra]. rewrite !Rsqr_pow2. nra. }
    pose proof (foot_in x y z Hu0 ltac:(lra) (conj Hu8 (Rle_trans _ _ _ HuQ HQb))) as F1. cbv zeta in F1. fold u in F1.
    eapply Rle_trans; [exact F1|].
    assert (Hbu : 0 <= b - u <= 112 / 100 * (a / b * - h)).
    { split; [lra|]. apply Rmult_le_reg_r with b; [assumption|].
      replace (112 / 100 * (a / b * - h) * b) with (112 / 100 * (a * - h)) by (field; lra). nra. }
    set (Z := (E ^ 2 / a ^ 2) ^ 2) in *.
    replace (48 / 100 * b * (Z * (a / b) ^ 6 * (2 * (h ^ 4 / b ^ 3)))) with (96 / 100 * (Z * ((a / b) ^ 6 * h ^ 4) / b ^ 2)) by (field; lra).
    replace ((u - b) ^ 4) with ((b - u) ^ 4) by ring.
    assert (M : (b - u) ^ 4 <= 1574 / 1000 * ((a / b) ^ 6 * h ^ 4)).
    { apply Rle_trans with ((112 / 100 * (a / b * - h)) ^ 4); [apply pow_incr; lra|].
      replace ((112 / 100 * (a / b * - h)) ^ 4) with ((112 / 100) ^ 4 * ((a / b) ^ 4 * h ^ 4)) by (field; lra).
      assert (0 <= (a / b) ^ 4 * h ^ 4) by (apply Rmult_le_pos; [apply pow_le; lra|]; replace (h ^ 4) with ((h ^ 2) ^ 2) by ring; apply sq_nonneg).
      assert ((a / b) ^ 4 * h ^ 4 <= (a / b) ^ 6 * h ^ 4) by (apply Rmult_le_compat_r; [replace (h ^ 4) with ((h ^ 2) ^ 2) by ring; apply sq_nonneg|assumption]).
      lra. }
    assert (Zb : 0 <= Z / b ^ 2) by (apply Rmult_le_pos; [assumption|left; now apply Rinv_0_lt_compat]).
    replace (6 / 10 * (Z * (b - u) ^ 4 / b ^ 2)) with (Z / b ^ 2 * (6 / 10 * (b - u) ^ 4)) by (field; lra).
    replace (96 / 100 * (Z * ((a / b) ^ 6 * h ^ 4) / b ^ 2)) with (Z / b ^ 2 * (96 / 100 * ((a / b) ^ 6 * h ^ 4))) by (field; lra).
    apply Rmult_le_compat_l; [assumption|]. 
    assert (0 <= (a / b) ^ 6 * h ^ 4) by (apply Rmult_le_pos; [apply pow_le; lra|]; replace (h ^ 4) with ((h ^ 2) ^ 2) by ring; apply sq_nonneg).
    lra.
Qed.
End ACC.
