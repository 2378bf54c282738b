(** Proofs about ecef2geodetic. *)
From Coq Require Import Lia Psatz.
From Verif Require Import PyMath L_PyMath M_ellipsoid M_ecef Spec L_ell L_ecef.
Open Scope R_scope.

Lemma sqrt_r_sq x y z : sqrt (x ^ 2 + y ^ 2 + z ^ 2) ^ 2 = x ^ 2 + y ^ 2 + z ^ 2.
Proof.
  apply pow2_sqrt'. pose proof (sumsq_nonneg x y). pose proof (sq_nonneg z). lra.
Qed.

Lemma isclose0_big z : 1 / 100000000 < Rabs z -> isclose0 z = false.
Proof. intros H. unfold isclose0. destruct (Rle_dec _ _); [lra|reflexivity]. Qed.
Lemma isclose0_opp z : isclose0 (- z) = isclose0 z.
Proof. unfold isclose0. now rewrite Rabs_Ropp. Qed.
Lemma isclose0_0 : isclose0 0 = true.
Proof. unfold isclose0. rewrite Rabs_R0. destruct (Rle_dec _ _); [reflexivity|lra]. Qed.
Lemma isclose0_true_le z : isclose0 z = true -> Rabs z <= 1 / 100000000.
Proof. unfold isclose0. destruct (Rle_dec _ _); [trivial|discriminate]. Qed.

Section E2G.
Variable e : Ellipsoid.
Hypothesis He : valid_ell e.
Let a := semimajor_axis e.
Let b := semiminor_axis e.
Let E := you_E e.
Let Hb : 0 < b. Proof. apply He. Qed.
Let Ha : b <= a. Proof. apply He. Qed.

Lemma E_nonneg : 0 <= E. Proof. apply sqrt_pos. Qed.
Lemma E_sq : E ^ 2 = a ^ 2 - b ^ 2.
Proof. unfold E, you_E. fold a b. apply pow2_sqrt'. pose proof Hb; pose proof Ha. nra. Qed.
Lemma E_lt_a : E < a.
Proof. pose proof E_sq. pose proof E_nonneg. pose proof Hb; pose proof Ha. nra. Qed.

Lemma u_nonneg x y z : 0 <= you_u e x y z.
Proof. apply sqrt_pos. Qed.

(** Defining quartic of u. *)
Lemma u_sq x y z : let t := x ^ 2 + y ^ 2 + z ^ 2 - E ^ 2 in
  2 * you_u e x y z ^ 2 = t + hypot t (2 * E * z).
Proof.
  cbv zeta. unfold you_u. rewrite sqrt_r_sq. fold E.
  set (t := x ^ 2 + y ^ 2 + z ^ 2 - E ^ 2).
  rewrite pow2_sqrt'; [lra|].
  pose proof (hypot_ge_abs_l t (2 * E * z)). pose proof (Rle_abs (-t)).
  rewrite Rabs_Ropp in *. lra.
Qed.
Lemma u_quartic x y z : let u := you_u e x y z in
  u ^ 2 * u ^ 2 = (x ^ 2 + y ^ 2 + z ^ 2 - E ^ 2) * u ^ 2 + E ^ 2 * z ^ 2.
Proof.
  cbv zeta. pose proof (u_sq x y z) as H. cbv zeta in H.
  set (t := x ^ 2 + y ^ 2 + z ^ 2 - E ^ 2) in *.
  pose proof (hypot_pow2 t (2 * E * z)) as H2.
  assert (Hh : hypot t (2 * E * z) = 2 * you_u e x y z ^ 2 - t) by lra.
  rewrite Hh in H2. nra.
Qed.
Lemma u_char x y z v : 0 <= v ->
  v ^ 2 * v ^ 2 = (x ^ 2 + y ^ 2 + z ^ 2 - E ^ 2) * v ^ 2 + E ^ 2 * z ^ 2 ->
  x ^ 2 + y ^ 2 + z ^ 2 - E ^ 2 <= 2 * v ^ 2 ->
  you_u e x y z = v.
Proof.
  intros Hv H1 H2. pose proof (u_sq x y z) as H. cbv zeta in H.
  set (t := x ^ 2 + y ^ 2 + z ^ 2 - E ^ 2) in *.
  assert (Hh : hypot t (2 * E * z) = 2 * v ^ 2 - t).
  { apply hypot_uniq; [lra|]. nra. }
  rewrite Hh in H. pose proof (u_nonneg x y z).
  assert (you_u e x y z ^ 2 = v ^ 2) by lra. simpl in *. nra.
Qed.

(** R^2 = huE^2 cos^2, z = u sin : the point lies on the confocal ellipsoid. *)
Lemma confocal x y z : let u := you_u e x y z in
  u <> 0 -> (x ^ 2 + y ^ 2) / (u ^ 2 + E ^ 2) + z ^ 2 / u ^ 2 = 1.
Proof.
  cbv zeta. intros Hu. pose proof (u_quartic x y z) as H. cbv zeta in H.
  set (u := you_u e x y z) in *.
  assert (0 < u ^ 2) by (pose proof (u_nonneg x y z); fold u in H0; nra).
  pose proof (sq_nonneg E).
  transitivity (((x ^ 2 + y ^ 2) * u ^ 2 + z ^ 2 * (u ^ 2 + E ^ 2))
                / ((u ^ 2 + E ^ 2) * u ^ 2)).
  - field. split; [lra|nra].
  - replace ((x ^ 2 + y ^ 2) * u ^ 2 + z ^ 2 * (u ^ 2 + E ^ 2))
      with ((u ^ 2 + E ^ 2) * u ^ 2) by nra.
    field. split; [lra|nra].
Qed.

(** K = a huE - b u - E^2 >= 0 (Cauchy-Schwarz) *)
Lemma K_nonneg u : 0 <= u -> 0 <= a * hypot u E - b * u - E ^ 2.
Proof.
  intros Hu. pose proof (hypot_pow2 u E) as H. pose proof (hypot_nonneg u E).
  pose proof E_sq. pose proof Hb. pose proof Ha. pose proof E_nonneg.
  set (h := hypot u E) in *.
  assert ((b * u + E ^ 2) ^ 2 <= (a * h) ^ 2).
  { replace ((a * h) ^ 2) with (a ^ 2 * h ^ 2) by ring. rewrite H.
    replace (a ^ 2) with (b ^ 2 + E ^ 2) by lra.
    pose proof (sq_nonneg (b * E - u * E)). nra. }
  assert (b * u + E ^ 2 <= a * h).
  { apply Rsqr_incr_0_var; unfold Rsqr; nra. }
  lra.
Qed.

Definition beta0 x y z := atan (hypot (you_u e x y z) E / you_u e x y z * z / hypot x y).

Lemma huE_ge_E u : E <= hypot u E.
Proof. rewrite hypot_comm. apply hypot_ge_l. Qed.

Lemma ahuE_gt u c : 0 < u -> c ^ 2 <= 1 -> 0 < a * hypot u E - E ^ 2 * c ^ 2.
Proof.
  intros Hu Hc. pose proof (huE_ge_E u). pose proof E_lt_a. pose proof E_nonneg.
  assert (0 < hypot u E) by (apply hypot_pos; lra).
  assert (E * E <= a * E) by nra. assert (E ^ 2 * c ^ 2 <= E ^ 2) by nra.
  destruct (Req_dec E 0) as [HE|HE].
  - rewrite HE in *. nra.
  - assert (E * E < a * E) by nra. assert (a * E <= a * hypot u E) by nra. simpl in *. lra.
Qed.

(** The correction in eqn. 13 in closed form, with 0 <= shrink factor <= 1. *)
Lemma you_beta_form x y z : you_u e x y z <> 0 -> hypot x y <> 0 ->
  exists k, 0 <= k <= 1 /\
    you_beta e x y z = beta0 x y z - k * (sin (beta0 x y z) * cos (beta0 x y z)) /\
    (k = 0 <-> a * hypot (you_u e x y z) E - b * you_u e x y z - E ^ 2 = 0).
Proof.
  intros Hu Hh. pose proof (u_nonneg x y z) as Hun.
  set (u := you_u e x y z) in *. assert (Hup : 0 < u) by lra.
  set (t := beta0 x y z).
  pose proof (K_nonneg u (Rlt_le _ _ Hup)) as HK.
  assert (Hc : 0 < cos t) by (apply cos_atan_pos).
  pose proof (cos_le1 t) as Hc1.
  pose proof (ahuE_gt u (cos t) Hup Hc1) as HD.
  set (K := a * hypot u E - b * u - E ^ 2) in *.
  set (D := a * hypot u E - E ^ 2 * cos t ^ 2) in *.
  exists (K / D). split; [|split].
  - split.
    + apply Rmult_le_pos; [lra|]. left. now apply Rinv_0_lt_compat.
    + apply Rmult_le_reg_r with D; [assumption|]. unfold Rdiv.
      rewrite Rmult_assoc, Rinv_l by lra. unfold K, D.
      pose proof (sq_nonneg E). pose proof Hb. nra.
  - change (you_beta e x y z) with (t + ((b * u - a * hypot u E + E ^ 2) * sin t)
      / (a * hypot u E * 1 / cos t - E ^ 2 * cos t)).
    assert (Hrw : a * hypot u E * 1 / cos t - E ^ 2 * cos t = D / cos t).
    { unfold D. field. lra. }
    rewrite Hrw. clearbody D. unfold K. field. split; lra.
  - split; intros HH.
    + apply Rmult_eq_reg_r with (/ D).
      * fold (K / D). rewrite HH. ring.
      * apply Rinv_neq_0_compat. lra.
    + rewrite HH. unfold Rdiv. ring.
Qed.

(** sin t cos t lies between 0 and t for 0 <= t < pi/2. *)
Lemma sc_le t : 0 <= t -> t <= PI/2 -> 0 <= sin t * cos t <= t.
Proof.
  intros H0 H1. pose proof PI_RGT_0.
  assert (0 <= sin t) by (apply sin_ge_0; lra).
  assert (0 <= cos t) by (apply cos_ge_0; lra).
  split; [nra|]. pose proof (COS_bound t).
  assert (sin t <= t).
  { destruct H0 as [H0|H0]; [left; now apply sin_lt_x|]. subst t. rewrite sin_0. lra. }
  nra.
Qed.

(** beta lies between 0 and beta0, on the side of z. *)
Lemma you_beta_nonneg x y z : you_u e x y z <> 0 -> hypot x y <> 0 -> 0 <= z ->
  0 <= you_beta e x y z <= beta0 x y z /\ beta0 x y z < PI/2.
Proof.
  intros Hu Hh Hz. destruct (you_beta_form x y z Hu Hh) as (k & Hk & -> & _).
  assert (H0 : 0 <= beta0 x y z).
  { unfold beta0. rewrite <- atan_0. apply Rnot_lt_le. intros Hlt.
    assert (HH : 0 <= hypot (you_u e x y z) E / you_u e x y z * z / hypot x y).
    { pose proof (u_nonneg x y z). pose proof (hypot_nonneg x y).
      pose proof (hypot_nonneg (you_u e x y z) E).
      repeat apply Rmult_le_pos; try assumption;
      left; apply Rinv_0_lt_compat; lra. }
    destruct HH as [HH|HH]; [apply atan_increasing in HH; lra|rewrite <- HH in Hlt; lra]. }
  pose proof (atan_bound (hypot (you_u e x y z) E / you_u e x y z * z / hypot x y)) as Hbd.
  fold (beta0 x y z) in Hbd.
  pose proof (sc_le (beta0 x y z) H0 ltac:(lra)) as Hs.
  repeat split; try lra; nra.
Qed.

Lemma u_mirror x y z : you_u e x y (- z) = you_u e x y z.
Proof.
  unfold you_u. f_equal. rewrite <- (hypot_opp_r _ (2 * you_E e * z)).
  replace ((- z) ^ 2) with (z ^ 2) by ring.
  replace (2 * you_E e * - z) with (- (2 * you_E e * z)) by ring. reflexivity.
Qed.
Lemma beta0_mirror x y z : beta0 x y (- z) = - beta0 x y z.
Proof.
  unfold beta0. rewrite u_mirror, <- atan_opp. f_equal. unfold Rdiv. ring.
Qed.
Lemma you_beta_mirror x y z : you_beta e x y (- z) = - you_beta e x y z.
Proof.
  unfold you_beta. rewrite u_mirror.
  replace (atan (hypot (you_u e x y z) (you_E e) / you_u e x y z * - z / hypot x y))
    with (- atan (hypot (you_u e x y z) (you_E e) / you_u e x y z * z / hypot x y))
    by (rewrite <- atan_opp; f_equal; unfold Rdiv; ring).
  rewrite sin_neg, cos_neg. unfold Rdiv. ring.
Qed.

Lemma neg_z z : z < 0 -> exists z', z = - z' /\ 0 < z'.
Proof. intros. exists (- z). split; lra. Qed.

Lemma you_beta_range x y z : you_u e x y z <> 0 -> hypot x y <> 0 ->
  - PI/2 < you_beta e x y z < PI/2.
Proof.
  intros Hu Hh. pose proof PI_RGT_0. destruct (Rle_lt_dec 0 z) as [Hz|Hz].
  - destruct (you_beta_nonneg x y z Hu Hh Hz). lra.
  - apply neg_z in Hz. destruct Hz as (z' & -> & Hz). rewrite u_mirror in Hu.
    destruct (you_beta_nonneg x y z' Hu Hh ltac:(lra)).
    rewrite you_beta_mirror. lra.
Qed.

Lemma exc_range (z : R) : - PI/2 <= (if isclose0 z then 0 else if Rlt_dec 0 z then PI / 2 else - PI / 2) <= PI/2.
Proof.
  pose proof PI_RGT_0. destruct (isclose0 z); [lra|]. destruct (Rlt_dec 0 z); lra.
Qed.

Lemma beta_scalar_range x y z : - PI/2 <= beta_scalar e x y z <= PI/2.
Proof.
  unfold beta_scalar.
  destruct (Req_EM_T (you_u e x y z) 0); [apply exc_range|].
  destruct (Req_EM_T (hypot x y) 0); [apply exc_range|].
  pose proof (you_beta_range x y z n n0). lra.
Qed.
Lemma beta_numpy_range x y z : - PI/2 <= beta_numpy e x y z <= PI/2.
Proof.
  unfold beta_numpy. destruct (isclose0 (you_u e x y z)) eqn:H1; cbn [orb]; [apply exc_range|].
  destruct (isclose0 (hypot x y)) eqn:H2; cbn [orb]; [apply exc_range|].
  assert (you_u e x y z <> 0) by (intros H; rewrite H, isclose0_0 in H1; discriminate).
  assert (hypot x y <> 0) by (intros H0; rewrite H0, isclose0_0 in H2; discriminate).
  pose proof (you_beta_range x y z H H0). lra.
Qed.

Lemma lat_scalar_range B : - PI/2 <= lat_scalar e B <= PI/2.
Proof.
  unfold lat_scalar, lat_of_beta. pose proof PI_RGT_0.
  destruct (Req_EM_T (cos B) 0).
  - unfold sign. destruct (Rlt_dec _ _); [lra|]. destruct (Rlt_dec _ _); lra.
  - pose proof (atan_bound (semimajor_axis e / semiminor_axis e * tan B)). lra.
Qed.

Lemma lat_scalar_mirror B : lat_scalar e (- B) = - lat_scalar e B.
Proof.
  unfold lat_scalar. rewrite cos_neg, sin_neg, sign_opp.
  destruct (Req_EM_T (cos B) 0); [ring|].
  unfold lat_of_beta. rewrite tan_neg, <- atan_opp. f_equal. ring.
Qed.
Lemma exc_mirror (z : R) : (if isclose0 (-z) then 0 else if Rlt_dec 0 (-z) then PI / 2 else - PI / 2)
  = - (if isclose0 z then 0 else if Rlt_dec 0 z then PI / 2 else - PI / 2).
Proof.
  rewrite isclose0_opp. destruct (isclose0 z) eqn:H; [ring|].
  destruct (Rlt_dec 0 z), (Rlt_dec 0 (-z)); try lra.
  assert (z = 0) by lra. subst. rewrite isclose0_0 in H. discriminate.
Qed.
Lemma beta_scalar_mirror x y z : beta_scalar e x y (- z) = - beta_scalar e x y z.
Proof.
  unfold beta_scalar. rewrite u_mirror.
  destruct (Req_EM_T (you_u e x y z) 0); [apply exc_mirror|].
  destruct (Req_EM_T (hypot x y) 0); [apply exc_mirror|]. apply you_beta_mirror.
Qed.
Lemma alt_mirror x y z B c : alt_of_beta e x y (- z) (- B) c = alt_of_beta e x y z B c.
Proof.
  unfold alt_of_beta, inside_dec. rewrite sin_neg.
  replace ((- z) ^ 2) with (z ^ 2) by ring.
  replace (- z - semiminor_axis e * - sin B) with (- (z - semiminor_axis e * sin B)) by ring.
  now rewrite hypot_opp_l.
Qed.

(** Altitude sign. *)
Lemma alt_inside x y z B c : c ^ 2 + sin B ^ 2 = 1 ->
  x ^ 2 / a ^ 2 + y ^ 2 / a ^ 2 + z ^ 2 / b ^ 2 < 1 -> alt_of_beta e x y z B c < 0.
Proof.
  intros Hc Hin. unfold alt_of_beta, inside_dec. fold a b.
  destruct (Rlt_dec _ 1); [|lra].
  enough (0 < hypot (z - b * sin B) (hypot x y - a * c)) by lra.
  apply hypot_pos. destruct (Req_dec (z - b * sin B) 0) as [Hz|Hz]; [right|now left].
  intros Hr. assert (z = b * sin B) by lra. assert (hypot x y = a * c) by lra.
  pose proof (hypot_pow2 x y) as Hh. rewrite H0 in Hh.
  assert (x ^ 2 / a ^ 2 + y ^ 2 / a ^ 2 + z ^ 2 / b ^ 2 = 1); [|lra].
  transitivity ((x ^ 2 + y ^ 2) / a ^ 2 + z ^ 2 / b ^ 2).
  - field. pose proof Hb; pose proof Ha. split; lra.
  - rewrite <- Hh, H, <- Hc. field. pose proof Hb; pose proof Ha. split; lra.
Qed.
Lemma alt_outside x y z B c :
  1 <= x ^ 2 / a ^ 2 + y ^ 2 / a ^ 2 + z ^ 2 / b ^ 2 -> 0 <= alt_of_beta e x y z B c.
Proof.
  intros Hin. unfold alt_of_beta, inside_dec. fold a b.
  destruct (Rlt_dec _ 1); [lra|]. apply hypot_nonneg.
Qed.

(** Rotation about the polar axis. *)
Lemma u_rot x y x' y' z : x ^ 2 + y ^ 2 = x' ^ 2 + y' ^ 2 ->
  you_u e x y z = you_u e x' y' z.
Proof. intros H. unfold you_u. now rewrite H. Qed.
Lemma hypot_rot x y x' y' : x ^ 2 + y ^ 2 = x' ^ 2 + y' ^ 2 -> hypot x y = hypot x' y'.
Proof. intros H. unfold hypot. now rewrite H. Qed.
Lemma beta_scalar_rot x y x' y' z : x ^ 2 + y ^ 2 = x' ^ 2 + y' ^ 2 ->
  beta_scalar e x y z = beta_scalar e x' y' z.
Proof.
  intros H. unfold beta_scalar, you_beta.
  now rewrite (u_rot x y x' y' z H), (hypot_rot x y x' y' H).
Qed.
Lemma alt_rot x y x' y' z B c : x ^ 2 + y ^ 2 = x' ^ 2 + y' ^ 2 ->
  alt_of_beta e x y z B c = alt_of_beta e x' y' z B c.
Proof.
  intros H. unfold alt_of_beta, inside_dec. rewrite (hypot_rot x y x' y' H).
  replace (x ^ 2 / semimajor_axis e ^ 2 + y ^ 2 / semimajor_axis e ^ 2)
    with (x' ^ 2 / semimajor_axis e ^ 2 + y' ^ 2 / semimajor_axis e ^ 2)
    by (unfold Rdiv; rewrite <- !Rmult_plus_distr_r; now rewrite H).
  reflexivity.
Qed.

(** ** Exactness *)
(** If Beta is the reduced latitude of (R,z)'s foot point, lat and alt are right. *)
Lemma lat_of_reduced p : - PI/2 < p < PI/2 ->
  lat_of_beta e (atan (b / a * tan p)) = p.
Proof.
  intros Hp. unfold lat_of_beta. fold a b. rewrite tan_atan.
  replace (a / b * (b / a * tan p)) with (tan p).
  - now apply atan_tan_id.
  - field. pose proof Hb; pose proof Ha. split; lra.
Qed.
Lemma reduced_cs p : - PI/2 < p < PI/2 ->
  let w := hypot (a * cos p) (b * sin p) in
  cos (atan (b / a * tan p)) = a * cos p / w /\ sin (atan (b / a * tan p)) = b * sin p / w.
Proof.
  intros Hp w. assert (Hc : 0 < cos p) by (apply cos_gt_0; lra).
  pose proof Hb as Hb'. pose proof Ha as Ha'.
  assert (Hac : 0 < a * cos p) by nra.
  assert (Hq : b / a * tan p = b * sin p / (a * cos p)).
  { unfold tan. field. split; lra. }
  rewrite Hq. pose proof (acbs_pos a b p Hb' Ha') as Hw. fold w in Hw.
  pose proof (hypot_cos_atan (b * sin p) (a * cos p) Hac) as H1.
  pose proof (hypot_sin_atan (b * sin p) (a * cos p) Hac) as H2.
  fold w in H1, H2. split.
  - rewrite <- H1 at 2. field. lra.
  - rewrite <- H2 at 2. field. lra.
Qed.

End E2G.
