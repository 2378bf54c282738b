(** Facts about the numeric primitives. *)
From Coq Require Import Lia Psatz.
From Verif Require Import PyMath.
Open Scope R_scope.

Lemma rad_in_deg x : rad_in true x = radians x. Proof. reflexivity. Qed.
Lemma degrees_radians x : degrees (radians x) = x.
Proof. unfold degrees, radians. field. apply PI_neq0. Qed.
Lemma radians_degrees x : radians (degrees x) = x.
Proof. unfold degrees, radians. field. apply PI_neq0. Qed.
Lemma radians_lt x y : x < y -> radians x < radians y.
Proof. unfold radians. pose proof PI_RGT_0. nra. Qed.
Lemma radians_le x y : x <= y -> radians x <= radians y.
Proof. unfold radians. pose proof PI_RGT_0. nra. Qed.
Lemma degrees_lt x y : x < y -> degrees x < degrees y.
Proof.
  intros H. unfold degrees. pose proof PI_RGT_0.
  apply Rmult_lt_compat_r; [apply Rinv_0_lt_compat; lra | lra].
Qed.
Lemma degrees_le x y : x <= y -> degrees x <= degrees y.
Proof. intros [H|H]; [left; now apply degrees_lt | subst; lra]. Qed.
Lemma degrees_PI : degrees PI = 180.
Proof. unfold degrees. field. apply PI_neq0. Qed.
Lemma degrees_PI2 : degrees (PI/2) = 90.
Proof. unfold degrees. field. apply PI_neq0. Qed.
Lemma degrees_tau : degrees (2*PI) = 360.
Proof. unfold degrees. field. apply PI_neq0. Qed.
Lemma degrees_0 : degrees 0 = 0. Proof. unfold degrees. lra. Qed.
Lemma degrees_opp x : degrees (-x) = - degrees x. Proof. unfold degrees. lra. Qed.
Lemma radians_opp x : radians (-x) = - radians x. Proof. unfold radians. lra. Qed.
Lemma radians_0 : radians 0 = 0. Proof. unfold radians. lra. Qed.
Lemma radians_90 : radians 90 = PI/2. Proof. unfold radians. lra. Qed.
Lemma radians_180 : radians 180 = PI. Proof. unfold radians. lra. Qed.
Lemma radians_360 : radians 360 = 2*PI. Proof. unfold radians. lra. Qed.
Lemma radians_plus x y : radians (x+y) = radians x + radians y. Proof. unfold radians. lra. Qed.
Lemma degrees_plus x y : degrees (x+y) = degrees x + degrees y. Proof. unfold degrees. lra. Qed.
Lemma deg_out_rad_in d x : deg_out d (rad_in d x) = x.
Proof. destruct d; [apply degrees_radians | reflexivity]. Qed.
Lemma rad_in_deg_out d x : rad_in d (deg_out d x) = x.
Proof. destruct d; [apply radians_degrees | reflexivity]. Qed.

(** ** sin^2 + cos^2 *)
Lemma sc1 x : sin x * sin x + cos x * cos x = 1.
Proof. apply sin2_cos2. Qed.
Lemma sin_sq x : sin x * sin x = 1 - cos x * cos x.
Proof. pose proof (sc1 x). lra. Qed.
Lemma sin_pow2 x : sin x ^ 2 = 1 - cos x ^ 2.
Proof. pose proof (sc1 x). simpl. lra. Qed.
Lemma cos_le1 x : cos x ^ 2 <= 1. Proof. pose proof (sc1 x); simpl; nra. Qed.

(** ** hypot *)
Lemma hypot_nonneg x y : 0 <= hypot x y.
Proof. apply sqrt_pos. Qed.
Lemma sq_nonneg x : 0 <= x ^ 2. Proof. simpl. nra. Qed.
Lemma sumsq_nonneg x y : 0 <= x ^ 2 + y ^ 2.
Proof. pose proof (sq_nonneg x); pose proof (sq_nonneg y); lra. Qed.
Lemma hypot_sq x y : hypot x y * hypot x y = x ^ 2 + y ^ 2.
Proof. apply sqrt_sqrt, sumsq_nonneg. Qed.
Lemma hypot_pow2 x y : hypot x y ^ 2 = x ^ 2 + y ^ 2.
Proof. rewrite <- hypot_sq. ring. Qed.
Lemma hypot_eq0 x y : hypot x y = 0 -> x = 0 /\ y = 0.
Proof.
  intros H. pose proof (hypot_sq x y) as E. rewrite H in E.
  pose proof (sq_nonneg x); pose proof (sq_nonneg y).
  assert (x ^ 2 = 0) by lra. assert (y ^ 2 = 0) by lra.
  split; simpl in *; nra.
Qed.
Lemma hypot_00 : hypot 0 0 = 0.
Proof. unfold hypot. replace (0^2+0^2) with 0 by ring. apply sqrt_0. Qed.
Lemma hypot_pos x y : x <> 0 \/ y <> 0 -> 0 < hypot x y.
Proof.
  intros H. destruct (hypot_nonneg x y) as [|E]; [assumption|].
  symmetry in E. apply hypot_eq0 in E. tauto.
Qed.
Lemma hypot_uniq x y r : 0 <= r -> r * r = x ^ 2 + y ^ 2 -> hypot x y = r.
Proof. intros Hr H. unfold hypot. rewrite <- H. now apply sqrt_square. Qed.
Lemma hypot_comm x y : hypot x y = hypot y x.
Proof. unfold hypot. f_equal. ring. Qed.
Lemma hypot_opp_l x y : hypot (-x) y = hypot x y.
Proof. unfold hypot. f_equal. ring. Qed.
Lemma hypot_opp_r x y : hypot x (-y) = hypot x y.
Proof. unfold hypot. f_equal. ring. Qed.
Lemma hypot_ge_abs_l x y : Rabs x <= hypot x y.
Proof.
  rewrite <- (sqrt_Rsqr_abs x). apply sqrt_le_1_alt.
  unfold Rsqr. pose proof (sq_nonneg y). simpl in *. lra.
Qed.
Lemma hypot_ge_l x y : x <= hypot x y.
Proof. pose proof (hypot_ge_abs_l x y). pose proof (Rle_abs x). lra. Qed.
Lemma hypot_x0 x : hypot x 0 = Rabs x.
Proof. unfold hypot. rewrite <- sqrt_Rsqr_abs. f_equal. unfold Rsqr. ring. Qed.
Lemma hypot_polar r t : 0 <= r -> hypot (r * cos t) (r * sin t) = r.
Proof.
  intros Hr. apply hypot_uniq; [assumption|].
  pose proof (sc1 t) as H.
  replace ((r * cos t) ^ 2 + (r * sin t) ^ 2)
    with (r * r * (sin t * sin t + cos t * cos t)) by ring.
  rewrite H. ring.
Qed.

(** ** atan *)
Lemma atan_tan_id t : - PI / 2 < t < PI / 2 -> atan (tan t) = t.
Proof. intros H. apply atan_tan. lra. Qed.
Lemma atan_bound' x : - PI / 2 < atan x < PI / 2.
Proof. apply atan_bound. Qed.
Lemma cos_atan_pos x : 0 < cos (atan x).
Proof. apply cos_gt_0; pose proof (atan_bound x); lra. Qed.
Lemma tan_is_sc t : tan t = sin t / cos t. Proof. reflexivity. Qed.

Lemma sqrt_1px2_pos x : 0 < sqrt (1 + x ^ 2).
Proof. apply sqrt_lt_R0. pose proof (sq_nonneg x). lra. Qed.
Lemma cos_atan' x : cos (atan x) = 1 / sqrt (1 + x ^ 2).
Proof.
  pose proof (cos_atan_pos x) as Hc. pose proof (sqrt_1px2_pos x) as Hs.
  assert (Ht : tan (atan x) = x) by (rewrite tan_atan; reflexivity).
  rewrite tan_is_sc in Ht.
  assert (Hsin : sin (atan x) = x * cos (atan x)).
  { rewrite <- Ht at 2. field. lra. }
  pose proof (sc1 (atan x)) as H1. rewrite Hsin in H1.
  assert (E : sqrt (1 + x ^ 2) = / cos (atan x)).
  { assert (P : 0 <= / cos (atan x)) by (left; apply Rinv_0_lt_compat; lra).
    rewrite <- (sqrt_square (/ cos (atan x)) P). f_equal.
    assert (1 + x ^ 2 = 1 / (cos (atan x) * cos (atan x))).
    { apply Rmult_eq_reg_r with (cos (atan x) * cos (atan x)); [|nra].
      transitivity 1; [ lra | field; lra ]. }
    rewrite H. field. lra. }
  rewrite E. field. lra.
Qed.
Lemma sin_atan' x : sin (atan x) = x / sqrt (1 + x ^ 2).
Proof.
  pose proof (cos_atan_pos x) as Hc.
  assert (Ht : tan (atan x) = x) by (rewrite tan_atan; reflexivity).
  rewrite tan_is_sc in Ht.
  transitivity (x * cos (atan x)).
  - rewrite <- Ht at 2. field. lra.
  - rewrite cos_atan'. field. pose proof (sqrt_1px2_pos x). lra.
Qed.

(** ** atan2 *)
Lemma atan2_pos y x : 0 < x -> atan2 y x = atan (y / x).
Proof. intros H. unfold atan2. destruct (Rlt_dec 0 x); [reflexivity|lra]. Qed.

Lemma atan2_range y x : - PI < atan2 y x <= PI.
Proof.
  unfold atan2. pose proof PI_RGT_0. pose proof (atan_bound (y/x)).
  destruct (Rlt_dec 0 x); [lra|].
  destruct (Rlt_dec x 0).
  - destruct (Rle_dec 0 y).
    + assert (y / x <= 0).
      { unfold Rdiv. assert (/ x < 0) by now apply Rinv_lt_0_compat. nra. }
      assert (atan (y/x) <= 0).
      { destruct H1 as [H1|H1].
        - apply atan_increasing in H1. rewrite atan_0 in H1. lra.
        - rewrite H1, atan_0. lra. }
      lra.
    + assert (0 < y / x).
      { unfold Rdiv. assert (/ x < 0) by now apply Rinv_lt_0_compat. nra. }
      apply atan_increasing in H1. rewrite atan_0 in H1. lra.
  - destruct (Rlt_dec 0 y); [lra|]. destruct (Rlt_dec y 0); lra.
Qed.

Lemma atan2_00 : atan2 0 0 = 0.
Proof. unfold atan2. destruct (Rlt_dec 0 0); [lra|]. destruct (Rlt_dec 0 0); lra. Qed.

(** hypot * (cos, sin) of atan2 gives back the vector. *)
Lemma hypot_cos_atan y x : 0 < x -> hypot x y * cos (atan (y/x)) = x.
Proof.
  intros Hx. rewrite cos_atan'.
  assert (E : hypot x y = x * sqrt (1 + (y/x)^2)).
  { apply hypot_uniq.
    - pose proof (sqrt_1px2_pos (y/x)); nra.
    - replace (x * sqrt (1 + (y / x) ^ 2) * (x * sqrt (1 + (y / x) ^ 2)))
        with (x * x * (sqrt (1 + (y / x) ^ 2) * sqrt (1 + (y / x) ^ 2))) by ring.
      rewrite sqrt_sqrt by (pose proof (sq_nonneg (y/x)); lra). field. lra. }
  rewrite E. field. pose proof (sqrt_1px2_pos (y/x)). lra.
Qed.
Lemma hypot_sin_atan y x : 0 < x -> hypot x y * sin (atan (y/x)) = y.
Proof.
  intros Hx. pose proof (hypot_cos_atan y x Hx) as H.
  assert (sin (atan (y/x)) = (y/x) * cos (atan (y/x))) as ->.
  { pose proof (cos_atan_pos (y/x)).
    assert (Ht : tan (atan (y/x)) = y/x) by (rewrite tan_atan; reflexivity).
    rewrite <- Ht at 2. rewrite tan_is_sc. field. lra. }
  replace (hypot x y * (y / x * cos (atan (y / x)))) with
    (y / x * (hypot x y * cos (atan (y/x)))) by ring.
  rewrite H. field. lra.
Qed.

Lemma cos_plus_PI t : cos (t + PI) = - cos t. Proof. apply neg_cos. Qed.
Lemma sin_plus_PI t : sin (t + PI) = - sin t. Proof. apply neg_sin. Qed.
Lemma cos_minus_PI t : cos (t - PI) = - cos t.
Proof. rewrite cos_minus, cos_PI, sin_PI. ring. Qed.
Lemma sin_minus_PI t : sin (t - PI) = - sin t.
Proof. rewrite sin_minus, cos_PI, sin_PI. ring. Qed.

Lemma hypot_cos_atan2 y x : hypot x y * cos (atan2 y x) = x.
Proof.
  unfold atan2. destruct (Rlt_dec 0 x) as [Hx|Hx]; [now apply hypot_cos_atan|].
  destruct (Rlt_dec x 0) as [Hx'|Hx'].
  - assert (E: y / x = (-y)/(-x)) by (field; lra).
    assert (Hn : 0 < -x) by lra.
    pose proof (hypot_cos_atan (-y) (-x) Hn) as H.
    rewrite hypot_opp_l, hypot_opp_r in H. rewrite <- E in H.
    destruct (Rle_dec 0 y); [rewrite cos_plus_PI | rewrite cos_minus_PI]; lra.
  - assert (x = 0) by lra. subst x.
    destruct (Rlt_dec 0 y); [rewrite cos_PI2; lra|].
    destruct (Rlt_dec y 0).
    + replace (- PI / 2) with (- (PI/2)) by lra. rewrite cos_neg, cos_PI2. lra.
    + assert (y = 0) by lra. subst. rewrite hypot_00. lra.
Qed.
Lemma hypot_sin_atan2 y x : hypot x y * sin (atan2 y x) = y.
Proof.
  unfold atan2. destruct (Rlt_dec 0 x) as [Hx|Hx]; [now apply hypot_sin_atan|].
  destruct (Rlt_dec x 0) as [Hx'|Hx'].
  - assert (E: y / x = (-y)/(-x)) by (field; lra).
    assert (Hn : 0 < -x) by lra.
    pose proof (hypot_sin_atan (-y) (-x) Hn) as H.
    rewrite hypot_opp_l, hypot_opp_r in H. rewrite <- E in H.
    destruct (Rle_dec 0 y); [rewrite sin_plus_PI | rewrite sin_minus_PI]; lra.
  - assert (x = 0) by lra. subst x.
    assert (Hh : hypot 0 y = Rabs y) by (rewrite hypot_comm; apply hypot_x0).
    rewrite Hh.
    destruct (Rlt_dec 0 y); [rewrite sin_PI2, Rabs_right by lra; lra|].
    destruct (Rlt_dec y 0).
    + replace (- PI / 2) with (- (PI/2)) by lra.
      rewrite sin_neg, sin_PI2, Rabs_left by lra. lra.
    + assert (y = 0) by lra. subst. rewrite Rabs_R0. lra.
Qed.

(** An angle is determined by its sine and cosine in any half-open turn. *)
Lemma cos_eq_1_range t : - (2*PI) < t < 2 * PI -> cos t = 1 -> t = 0.
Proof.
  intros H Hc. pose proof PI_RGT_0.
  assert (Hs: cos t = 1 - 2 * sin (t/2) * sin (t/2)).
  { replace t with (2*(t/2)) at 1 by lra. rewrite cos_2a_sin. ring. }
  assert (S : sin (t/2) = 0) by nra.
  destruct (Rtotal_order t 0) as [Ht|[Ht|Ht]]; [|assumption|].
  - assert (0 < sin (- (t/2))) by (apply sin_gt_0; lra). rewrite sin_neg in *. lra.
  - assert (0 < sin (t/2)) by (apply sin_gt_0; lra). lra.
Qed.
Lemma angle_unique s t :
  - (2*PI) < s - t < 2*PI -> cos s = cos t -> sin s = sin t -> s = t.
Proof.
  intros H Hc Hs. apply Rminus_diag_uniq. apply cos_eq_1_range; [assumption|].
  rewrite cos_minus, Hc, Hs. pose proof (sc1 t). lra.
Qed.

Lemma atan2_polar r t : 0 < r -> - PI < t <= PI -> atan2 (r * sin t) (r * cos t) = t.
Proof.
  intros Hr Ht. pose proof (atan2_range (r * sin t) (r * cos t)) as Hb.
  pose proof (hypot_polar r t (Rlt_le _ _ Hr)) as Hh.
  pose proof (hypot_cos_atan2 (r * sin t) (r * cos t)) as Hc.
  pose proof (hypot_sin_atan2 (r * sin t) (r * cos t)) as Hs.
  rewrite Hh in *.
  apply angle_unique; [lra| |]; apply Rmult_eq_reg_l with r; lra.
Qed.
Lemma atan2_unique y x t r :
  0 < r -> - PI < t <= PI -> y = r * sin t -> x = r * cos t -> atan2 y x = t.
Proof. intros Hr Ht -> ->. now apply atan2_polar. Qed.

Lemma atan2_scale k y x : 0 < k -> atan2 (k*y) (k*x) = atan2 y x.
Proof.
  intros Hk. destruct (Req_dec x 0) as [Hx|Hx], (Req_dec y 0) as [Hy|Hy].
  - subst. now rewrite !Rmult_0_r.
  - apply (atan2_unique _ _ _ (k * hypot x y)).
    + apply Rmult_lt_0_compat; [assumption|]. apply hypot_pos; tauto.
    + apply atan2_range.
    + rewrite Rmult_assoc, hypot_sin_atan2. reflexivity.
    + rewrite Rmult_assoc, hypot_cos_atan2. reflexivity.
  - apply (atan2_unique _ _ _ (k * hypot x y)).
    + apply Rmult_lt_0_compat; [assumption|]. apply hypot_pos; tauto.
    + apply atan2_range.
    + rewrite Rmult_assoc, hypot_sin_atan2. reflexivity.
    + rewrite Rmult_assoc, hypot_cos_atan2. reflexivity.
  - apply (atan2_unique _ _ _ (k * hypot x y)).
    + apply Rmult_lt_0_compat; [assumption|]. apply hypot_pos; tauto.
    + apply atan2_range.
    + rewrite Rmult_assoc, hypot_sin_atan2. reflexivity.
    + rewrite Rmult_assoc, hypot_cos_atan2. reflexivity.
Qed.

(** atan2 with non-negative second argument is in [-pi/2, pi/2]. *)
Lemma atan2_right y x : 0 <= x -> - PI / 2 <= atan2 y x <= PI / 2.
Proof.
  intros Hx. unfold atan2. pose proof PI_RGT_0. pose proof (atan_bound (y/x)).
  destruct (Rlt_dec 0 x); [lra|]. destruct (Rlt_dec x 0); [lra|].
  destruct (Rlt_dec 0 y); [lra|]. destruct (Rlt_dec y 0); lra.
Qed.
Lemma atan2_upper y x : 0 <= y -> 0 <= atan2 y x <= PI.
Proof.
  intros Hy. pose proof (atan2_range y x) as Hr. split; [|lra].
  destruct (Req_dec y 0) as [->|Hy0].
  - unfold atan2. destruct (Rlt_dec 0 x).
    + unfold Rdiv. rewrite Rmult_0_l, atan_0. lra.
    + destruct (Rlt_dec x 0).
      * destruct (Rle_dec 0 0); [|lra]. unfold Rdiv. rewrite Rmult_0_l, atan_0.
        pose proof PI_RGT_0; lra.
      * destruct (Rlt_dec 0 0); lra.
  - apply Rnot_lt_le. intros Hneg.
    assert (0 < hypot x y) by (apply hypot_pos; tauto).
    pose proof (hypot_sin_atan2 y x).
    assert (sin (atan2 y x) < 0).
    { rewrite <- (Ropp_involutive (atan2 y x)), sin_neg.
      assert (0 < sin (- atan2 y x)) by (apply sin_gt_0; lra). lra. }
    nra.
Qed.

Lemma cos_atan2 y x : (x <> 0 \/ y <> 0) -> cos (atan2 y x) = x / hypot x y.
Proof.
  intros H. apply hypot_pos in H. pose proof (hypot_cos_atan2 y x).
  rewrite <- H0 at 2. field. lra.
Qed.
Lemma sin_atan2 y x : (x <> 0 \/ y <> 0) -> sin (atan2 y x) = y / hypot x y.
Proof.
  intros H. apply hypot_pos in H. pose proof (hypot_sin_atan2 y x).
  rewrite <- H0 at 2. field. lra.
Qed.

(** ** Python's float modulo *)
Lemma py_mod_range x m : 0 < m -> 0 <= py_mod x m < m.
Proof.
  intros Hm. unfold py_mod. destruct (base_Int_part (x/m)) as [H1 H2].
  assert (E : x = m * (x/m)) by (field; lra).
  set (k := IZR (Int_part (x/m))) in *. set (q := x/m) in *.
  rewrite E. split; nra.
Qed.
Lemma Int_part_unique x z : IZR z <= x < IZR z + 1 -> Int_part x = z.
Proof.
  intros [H1 H2]. destruct (base_Int_part x) as [H3 H4].
  assert (A : (Int_part x < z + 1)%Z).
  { apply lt_IZR. rewrite plus_IZR. lra. }
  assert (B : (z < Int_part x + 1)%Z).
  { apply lt_IZR. rewrite plus_IZR. lra. }
  lia.
Qed.
Lemma py_mod_congr x m : 0 < m -> exists k : Z, py_mod x m = x + IZR k * m.
Proof.
  intros Hm. exists (- Int_part (x/m))%Z. unfold py_mod. rewrite opp_IZR. ring.
Qed.
Lemma py_mod_unique x y m k :
  0 < m -> 0 <= y < m -> x = y + IZR k * m -> py_mod x m = y.
Proof.
  intros Hm Hy ->. unfold py_mod.
  replace (Int_part ((y + IZR k * m) / m)) with k; [ring|].
  symmetry. apply Int_part_unique.
  assert (E : (y + IZR k * m) / m = y / m + IZR k) by (field; lra).
  rewrite E. assert (0 <= y / m < 1).
  { split.
    - apply Rmult_le_pos; [lra|]. left. now apply Rinv_0_lt_compat.
    - apply Rmult_lt_reg_r with m; [assumption|]. unfold Rdiv.
      rewrite Rmult_assoc, Rinv_l by lra. lra. }
  lra.
Qed.
Lemma py_mod_small x m : 0 <= x < m -> py_mod x m = x.
Proof. intros H. apply (py_mod_unique _ _ _ 0); [lra|assumption|ring]. Qed.
Lemma py_mod_plus x m k : 0 < m -> py_mod (x + IZR k * m) m = py_mod x m.
Proof.
  intros Hm. destruct (py_mod_congr x m Hm) as [j Hj].
  apply (py_mod_unique _ _ _ (k - j)).
  - assumption.
  - now apply py_mod_range.
  - rewrite Hj, minus_IZR. ring.
Qed.
Lemma cos_period_Z x k : cos (x + IZR k * (2 * PI)) = cos x.
Proof.
  destruct k as [|p|p].
  - f_equal. ring.
  - replace (x + IZR (Z.pos p) * (2*PI)) with (x + 2 * INR (Pos.to_nat p) * PI).
    + apply cos_period.
    + rewrite INR_IZR_INZ, positive_nat_Z. ring.
  - rewrite <- (cos_period (x + IZR (Z.neg p) * (2*PI)) (Pos.to_nat p)). f_equal.
    rewrite INR_IZR_INZ, positive_nat_Z.
    rewrite <- Pos2Z.opp_pos, opp_IZR. ring.
Qed.
Lemma sin_period_Z x k : sin (x + IZR k * (2 * PI)) = sin x.
Proof.
  destruct k as [|p|p].
  - f_equal. ring.
  - replace (x + IZR (Z.pos p) * (2*PI)) with (x + 2 * INR (Pos.to_nat p) * PI).
    + apply sin_period.
    + rewrite INR_IZR_INZ, positive_nat_Z. ring.
  - rewrite <- (sin_period (x + IZR (Z.neg p) * (2*PI)) (Pos.to_nat p)). f_equal.
    rewrite INR_IZR_INZ, positive_nat_Z.
    rewrite <- Pos2Z.opp_pos, opp_IZR. ring.
Qed.
Lemma tau_pos : 0 < tau. Proof. unfold tau. pose proof PI_RGT_0; lra. Qed.
Lemma cos_py_mod x : cos (py_mod x tau) = cos x.
Proof.
  destruct (py_mod_congr x tau tau_pos) as [k ->]. unfold tau. apply cos_period_Z.
Qed.
Lemma sin_py_mod x : sin (py_mod x tau) = sin x.
Proof.
  destruct (py_mod_congr x tau tau_pos) as [k ->]. unfold tau. apply sin_period_Z.
Qed.
Lemma py_mod_atan2 r t : 0 < r -> 0 <= t < tau ->
  py_mod (atan2 (r * sin t) (r * cos t)) tau = t.
Proof.
  intros Hr Ht. pose proof PI_RGT_0. unfold tau in Ht.
  destruct (Rle_dec t PI) as [H1|H1].
  - rewrite atan2_polar by lra. apply py_mod_small. unfold tau. lra.
  - rewrite <- (sin_period_Z t (-1)), <- (cos_period_Z t (-1)).
    rewrite atan2_polar by (simpl; lra).
    rewrite <- (py_mod_plus _ tau 1) by apply tau_pos.
    unfold tau in *. replace (t + -1 * (2 * PI) + 1 * (2 * PI)) with t by ring.
    apply py_mod_small. lra.
Qed.

(** ** sign *)
Lemma sign_opp x : sign (-x) = - sign x.
Proof. unfold sign. repeat destruct (Rlt_dec _ _); lra. Qed.

(** ** square roots *)
Lemma sqrt_pow2' x : 0 <= x -> sqrt (x ^ 2) = x.
Proof. intros H. replace (x^2) with (x*x) by ring. now apply sqrt_square. Qed.
Lemma pow2_sqrt' x : 0 <= x -> sqrt x ^ 2 = x.
Proof. intros H. replace (sqrt x ^2) with (sqrt x * sqrt x) by ring. now apply sqrt_sqrt. Qed.
Lemma sqrt_uniq x r : 0 <= r -> r * r = x -> sqrt x = r.
Proof. intros H <-. now apply sqrt_square. Qed.
