(** Accuracy of ecef2geodetic on the images of geodetic2ecef. *)
From Coq Require Import Reals Lra Lia Psatz.
From Coquelicot Require Import Coquelicot.
From Verif Require Import PyMath L_PyMath M_ellipsoid M_ecef Spec L_ell L_ecef L_ecef2geo L_ecefrt L_ecefsurj L_series2 L_ecefacc.
Open Scope R_scope.

Lemma hypot_lip p q r s : Rabs (hypot p q - hypot r s) <= hypot (p - r) (q - s).
Proof.
  apply Rsqr_incr_0_var; [|apply hypot_nonneg]. rewrite <- Rsqr_abs, !Rsqr_pow2, hypot_pow2.
  replace ((hypot p q - hypot r s) ^ 2) with (hypot p q ^ 2 + hypot r s ^ 2 - 2 * (hypot p q * hypot r s)) by ring.
  rewrite !hypot_pow2. assert (p * r + q * s <= hypot p q * hypot r s); [|nra].
  apply Rsqr_incr_0_var; [|apply Rmult_le_pos; apply hypot_nonneg]. rewrite !Rsqr_pow2, Rpow_mult_distr, !hypot_pow2.
  pose proof (sq_nonneg (p * s - q * r)). nra.
Qed.

Lemma pi_half_up : PI / 2 < 165 / 100.
Proof.
  apply Rnot_le_lt. intros H. assert (0 <= cos (165 / 100)) by (apply cos_ge_0; pose proof PI_RGT_0; lra).
  destruct (cos_taylor (165 / 100)) as (th & T & E). apply Rabs_le_between in T. lra.
Qed.
Lemma arc_sin x : Rabs x < PI / 2 -> Rabs x <= 168 / 100 * Rabs (sin x).
Proof.
  intros H. pose proof pi_half_up. destruct (sin_taylor x) as (th & T & E). rewrite E, Rabs_mult.
  assert (Hx : 0 <= x ^ 2 <= 2723 / 1000).
  { split; [apply sq_nonneg|]. rewrite <- pow2_abs. pose proof (Rabs_pos x). nra. }
  apply Rabs_le_between in T.
  assert (1 <= 168 / 100 * Rabs (1 - x ^ 2 / 6 + x ^ 4 / 120 - th * x ^ 6 / 5040)); [|pose proof (Rabs_pos x); nra].
  eapply Rle_trans; [|apply Rmult_le_compat_l; [lra|apply Rle_abs]].
  replace (x ^ 4) with (x ^ 2 * x ^ 2) by ring. replace (x ^ 6) with (x ^ 2 * (x ^ 2 * x ^ 2)) by ring. set (q := x ^ 2) in *.
  assert (0 <= q * q) by nra. assert (q * (q * q) <= 2723 / 1000 * (q * q)) by nra. assert (0 <= q * (q * q)) by nra.
  assert (th * (q * (q * q)) <= q * (q * q)) by nra.
  assert (0 <= (2723 / 1000 - q) * (2723 / 1000 - q)) by nra. nra.
Qed.

Section GAP.
Variable e : Ellipsoid.
Hypothesis He : valid_ell e.
Let a := semimajor_axis e.
Let b := semiminor_axis e.
Let E := you_E e.
Let Hb : 0 < b. Proof. apply He. Qed.
Let Ha : b <= a. Proof. apply He. Qed.
Hypothesis Hflat : a ^ 2 <= 2 * b ^ 2.

(** From the defect of the foot equation to the error of the reduced latitude. *)
Lemma beta_gap_up x y z p h : 0 <= p < PI / 2 -> - (b / 8) <= h ->
  let w := hypot (a * cos p) (b * sin p) in
  hypot x y = (a ^ 2 / w + h) * cos p -> z = (b ^ 2 / w + h) * sin p ->
  let t := atan (b / a * tan p) in let B := you_beta e x y z in
  Rabs (B - t) < PI / 2 /\ Rabs (lat_of_beta e B - p) < PI / 2 /\
  Rabs (sin (B - t)) * (b ^ 2 + h * w) <= Rabs (foot a b (hypot x y) z B).
Proof.
  intros Hp Hh w Hr Hz t B. pose proof PI_RGT_0. pose proof Hb as Hb'. pose proof Ha as Ha'.
  assert (Hp' : - PI / 2 < p < PI / 2) by lra.
  destruct (foot_height e He Hflat x y z p h Hp' Hh Hr Hz) as (Hu & Hh0 & Hq & _ & _). fold a b w in Hq.
  destruct (reduced_cs e He p Hp') as [Hc Hs]. fold a b w in Hc, Hs. fold t in Hc, Hs.
  pose proof (acbs_pos a b p Hb' Ha') as Hw. fold w in Hw.
  assert (Hsp : 0 <= sin p) by (apply sin_ge_0; lra). assert (Hcp : 0 < cos p) by (apply cos_gt_0; lra).
  assert (Hz0 : 0 <= z).
  { rewrite Hz. apply Rmult_le_pos; [|assumption]. apply Rmult_le_reg_r with w; [assumption|].
    replace ((b ^ 2 / w + h) * w) with (b ^ 2 + h * w) by (field; lra). nra. }
  destruct (you_beta_nonneg e He x y z Hu Hh0 Hz0) as [[B1 B2] B3]. fold B in B1, B2.
  assert (Ht : 0 <= t < PI / 2).
  { split; [|apply atan_bound]. unfold t. rewrite <- atan_0.
    assert (0 <= b / a * tan p).
    { apply Rmult_le_pos; [apply Rmult_le_pos; [lra|left; apply Rinv_0_lt_compat; lra]|].
      unfold tan. apply Rmult_le_pos; [lra|left; now apply Rinv_0_lt_compat]. }
    destruct (Req_dec 0 (b / a * tan p)) as [<-|]; [lra|left; apply atan_increasing; lra]. }
  split; [apply Rabs_def1; lra|]. split.
  - assert (HB0 : 0 <= lat_of_beta e B < PI / 2).
    { unfold lat_of_beta. split; [|apply atan_bound]. fold a b. rewrite <- atan_0.
      assert (0 <= a / b * tan B).
      { apply Rmult_le_pos; [apply Rmult_le_pos; [lra|left; apply Rinv_0_lt_compat; lra]|].
        unfold tan. apply Rmult_le_pos; [apply sin_ge_0; lra|left; apply Rinv_0_lt_compat, cos_gt_0; lra]. }
      destruct (Req_dec 0 (a / b * tan B)) as [<-|]; [lra|left; apply atan_increasing; lra]. }
    apply Rabs_def1; lra.
  - assert (HF : foot a b (hypot x y) z B = sin (B - t) * (b ^ 2 + h * w) + (a ^ 2 - b ^ 2) * sin B * (cos t - cos B)).
    { unfold foot. rewrite Hr, Hz, sin_minus, Hc, Hs. field. lra. }
    rewrite HF.
    assert (HsB : 0 <= sin B) by (apply sin_ge_0; lra).
    assert (HEB : 0 <= (a ^ 2 - b ^ 2) * sin B) by (apply Rmult_le_pos; [nra|assumption]).
    assert (Hbw : 0 <= b ^ 2 + h * w) by nra.
    destruct (Rle_lt_dec t B) as [Hle|Hlt].
    + assert (0 <= sin (B - t)) by (apply sin_ge_0; lra).
      assert (cos B <= cos t) by (apply cos_decr_1; lra).
      assert (0 <= (a ^ 2 - b ^ 2) * sin B * (cos t - cos B)) by (apply Rmult_le_pos; lra).
      assert (0 <= sin (B - t) * (b ^ 2 + h * w)) by (apply Rmult_le_pos; lra).
      rewrite !Rabs_pos_eq by lra. lra.
    + assert (sin (B - t) <= 0) by (replace (B - t) with (- (t - B)) by ring; rewrite sin_neg; assert (0 <= sin (t - B)) by (apply sin_ge_0; lra); lra).
      assert (cos t <= cos B) by (apply cos_decr_1; lra).
      assert (0 <= (a ^ 2 - b ^ 2) * sin B * (cos B - cos t)) by (apply Rmult_le_pos; lra).
      assert (0 <= - sin (B - t) * (b ^ 2 + h * w)) by (apply Rmult_le_pos; lra).
      rewrite (Rabs_left1 (sin (B - t))), Rabs_left1 by lra. lra.
Qed.

Lemma beta_gap x y z p h : - PI / 2 < p < PI / 2 -> - (b / 8) <= h ->
  let w := hypot (a * cos p) (b * sin p) in
  hypot x y = (a ^ 2 / w + h) * cos p -> z = (b ^ 2 / w + h) * sin p ->
  let t := atan (b / a * tan p) in let B := you_beta e x y z in
  Rabs (B - t) < PI / 2 /\ Rabs (lat_of_beta e B - p) < PI / 2 /\
  Rabs (sin (B - t)) * (b ^ 2 + h * w) <= Rabs (foot a b (hypot x y) z B).
Proof.
  intros Hp Hh. cbv zeta. intros Hr Hz. destruct (Rle_lt_dec 0 p) as [H0|H0]; [apply beta_gap_up; lra|].
  assert (Hw : hypot (a * cos (- p)) (b * sin (- p)) = hypot (a * cos p) (b * sin p)).
  { rewrite cos_neg, sin_neg. replace (b * - sin p) with (- (b * sin p)) by ring. apply hypot_opp_r. }
  pose proof (beta_gap_up x y (- z) (- p) h) as G. cbv zeta in G. rewrite Hw, cos_neg, sin_neg in G.
  specialize (G ltac:(lra) Hh Hr ltac:(rewrite Hz; ring)).
  rewrite you_beta_mirror in G. rewrite tan_neg in G.
  replace (b / a * - tan p) with (- (b / a * tan p)) in G by ring. rewrite atan_opp in G.
  assert (LB : lat_of_beta e (- you_beta e x y z) = - lat_of_beta e (you_beta e x y z)).
  { unfold lat_of_beta. rewrite tan_neg, <- atan_opp. f_equal. ring. }
  rewrite LB, foot_neg in G. set (B := you_beta e x y z) in *. set (t := atan (b / a * tan p)) in *.
  replace (- B - - t) with (- (B - t)) in G by ring. replace (- lat_of_beta e B - - p) with (- (lat_of_beta e B - p)) in G by ring.
  rewrite sin_neg, !Rabs_Ropp in G. exact G.
Qed.

Lemma acc_core x y z p h : - PI / 2 < p < PI / 2 -> - (b / 8) <= h ->
  let w := hypot (a * cos p) (b * sin p) in
  hypot x y = (a ^ 2 / w + h) * cos p -> z = (b ^ 2 / w + h) * sin p ->
  let B := beta_scalar e x y z in
  let lat := lat_scalar e B in let alt := alt_of_beta e x y z B (cos B) in
  let w' := hypot (a * cos lat) (b * sin lat) in
  let err := you_err e h in
  - PI / 2 < lat < PI / 2 /\
  Rabs (lat - p) <= 2 * err / b /\ Rabs (alt - h) <= 2 * err /\
  ((a ^ 2 / w' + alt) * cos lat - hypot x y) ^ 2 + ((b ^ 2 / w' + alt) * sin lat - z) ^ 2 <= err ^ 2 /\ 0 <= err.
Proof.
  intros Hp Hh w Hr Hz. cbv zeta. pose proof PI_RGT_0. pose proof Hb as Hb'. pose proof Ha as Ha'.
  destruct (foot_height e He Hflat x y z p h Hp Hh Hr Hz) as (Hu & Hh0 & Hq & Hqo & HF). fold a b w in Hq, Hqo, HF.
  destruct (beta_gap x y z p h Hp Hh Hr Hz) as (G1 & G2 & G3). fold w in G3.
  assert (HB : beta_scalar e x y z = you_beta e x y z).
  { unfold beta_scalar. destruct (Req_EM_T _ 0); [contradiction|]. destruct (Req_EM_T _ 0); [contradiction|reflexivity]. }
  rewrite HB. pose proof (alt_side e He Hflat x y z Hu Hh0) as HS. cbv zeta in HS. fold a b in HS.
  pose proof (you_beta_range e He x y z Hu Hh0) as BR. set (B := you_beta e x y z) in *.
  assert (Hcb : 0 < cos B) by (apply cos_gt_0; lra).
  assert (HL : lat_scalar e B = lat_of_beta e B) by (unfold lat_scalar; destruct (Req_EM_T _ 0); [lra|reflexivity]).
  rewrite HL. destruct (geod_of_reduced a b Hb' Ha' B Hcb) as (Hg & C1 & C2 & Hw'). cbv zeta in *.
  change (atan (a / b * tan B)) with (lat_of_beta e B) in *.
  set (lat := lat_of_beta e B) in *. set (g := hypot (b * cos B) (a * sin B)) in *.
  set (alt := alt_of_beta e x y z B (cos B)) in *.
  set (err := you_err e h) in *.
  set (f := foot a b (hypot x y) z B) in *.
  assert (He0 : 0 <= err).
  { unfold err, you_err. fold a b. apply Rmult_le_pos; [apply Rmult_le_pos; apply sq_nonneg|].
    destruct (Rle_dec 0 h).
    - apply Rmult_le_pos; [lra|]. unfold Rmin. destruct (Rle_dec 1 _); [lra|].
      apply pow_le. apply Rmult_le_pos; [lra|left; now apply Rinv_0_lt_compat].
    - apply Rmult_le_pos; [lra|]. apply Rmult_le_pos; [replace (h ^ 4) with ((h ^ 2) ^ 2) by ring; apply sq_nonneg|].
      left. apply Rinv_0_lt_compat, pow_lt, Hb'. }
  assert (HfB : Rabs f <= 2 / 3 * b * err).
  { eapply Rle_trans; [exact HF|]. destruct (Rle_dec 0 h); [lra|]. assert (0 <= b * err) by (apply Rmult_le_pos; lra). lra. }
  assert (Hb2 : 0 < b ^ 2) by (apply pow_lt; lra).
  assert (HsB : Rabs (sin (B - atan (b / a * tan p))) <= 2 / 3 * err / b).
  { set (S := Rabs (sin _)) in *. assert (0 <= S) by apply Rabs_pos.
    apply Rmult_le_reg_r with (b ^ 2); [assumption|]. replace (2 / 3 * err / b * b ^ 2) with (2 / 3 * b * err) by (field; lra).
    assert (0 <= b * err) by (apply Rmult_le_pos; lra).
    destruct (Rle_dec 0 h) as [Hh1|Hh1].
    - specialize (Hqo Hh1). assert (S * b ^ 2 <= S * (b ^ 2 + h * w)) by (apply Rmult_le_compat_l; lra). lra.
    - assert (S * (82 / 100 * b ^ 2) <= S * (b ^ 2 + h * w)) by (apply Rmult_le_compat_l; lra). lra. }
  assert (Hab : a <= 1415 / 1000 * b) by (apply Rsqr_incr_0_var; [|lra]; rewrite !Rsqr_pow2; nra).
  assert (Heb : 0 <= err / b) by (apply Rmult_le_pos; [lra|left; now apply Rinv_0_lt_compat]).
  destruct (reduced_cs e He p Hp) as [Hc Hs]. fold a b w in Hc, Hs.
  pose proof (acbs_pos a b p Hb' Ha') as Hw. fold w in Hw.
  set (t := atan (b / a * tan p)) in *.
  assert (Hwa : w <= a).
  { apply Rsqr_incr_0_var; [|lra]. rewrite !Rsqr_pow2. unfold w. rewrite hypot_pow2, !Rpow_mult_distr.
    pose proof (sin_pow2 p). pose proof (sq_nonneg (sin p)). assert (b ^ 2 <= a ^ 2) by nra. nra. }
  (* position *)
  assert (Halt2 : alt ^ 2 = (z - b * sin B) ^ 2 + (hypot x y - a * cos B) ^ 2).
  { unfold alt, alt_of_beta. fold a b. destruct (inside_dec e x y z);
    [replace ((- hypot (z - b * sin B) (hypot x y - a * cos B)) ^ 2) with (hypot (z - b * sin B) (hypot x y - a * cos B) ^ 2) by ring|]; apply hypot_pow2. }
  destruct (shift e He (cos B) (sin B) (hypot x y) z alt) as [Hgb Hsh]; [pose proof (sin_pow2 B); lra|exact Halt2|exact HS|].
  fold a b g in Hgb, Hsh.
  split; [apply atan_bound|]. split; [|split; [|split; [|assumption]]].
  - assert (Hsin : sin (lat - p) = w / g * sin (B - t)).
    { rewrite sin_minus, (sin_minus B t), C1, C2, Hc, Hs. field. lra. }
    assert (Hwg : 0 <= w / g <= 1415 / 1000).
    { split; [apply Rmult_le_pos; [lra|left; now apply Rinv_0_lt_compat]|].
      apply Rmult_le_reg_r with g; [assumption|]. unfold Rdiv. rewrite Rmult_assoc, Rinv_l, Rmult_1_r by lra. nra. }
    pose proof (arc_sin _ G2) as A. rewrite Hsin, Rabs_mult, (Rabs_pos_eq (w / g)) in A by lra.
    pose proof (Rabs_pos (sin (B - t))).
    assert (w / g * Rabs (sin (B - t)) <= 1415 / 1000 * (2 / 3 * err / b)) by (apply Rmult_le_compat; lra). lra.
  - (* altitude *)
    assert (Hins := inside_height e He x y z (cos p) (sin p) h). cbv zeta in Hins. fold a b w in Hins.
    specialize (Hins Hw ltac:(pose proof (sin_pow2 p); lra)).
    specialize (Hins ltac:(rewrite <- Hr; symmetry; apply hypot_pow2) Hz).
    assert (Hy : hypot (z - b * sin t) (hypot x y - a * cos t) = Rabs h).
    { rewrite Hr, Hz, Hc, Hs.
      replace ((b ^ 2 / w + h) * sin p - b * (b * sin p / w)) with (h * sin p) by (field; lra).
      replace ((a ^ 2 / w + h) * cos p - a * (a * cos p / w)) with (h * cos p) by (field; lra).
      apply hypot_uniq; [apply Rabs_pos|].
      rewrite <- Rabs_mult, Rabs_right by nra. tring1 p. }
    set (m := hypot (z - b * sin B) (hypot x y - a * cos B)).
    assert (Hm : Rabs (m - Rabs h) <= 2 * err).
    { rewrite <- Hy. unfold m. eapply Rle_trans; [apply hypot_lip|].
      apply Rsqr_incr_0_var; [|lra]. rewrite !Rsqr_pow2, hypot_pow2.
      replace (z - b * sin B - (z - b * sin t)) with (b * (sin t - sin B)) by ring.
      replace (hypot x y - a * cos B - (hypot x y - a * cos t)) with (a * (cos t - cos B)) by ring.
      rewrite !Rpow_mult_distr.
      assert (b ^ 2 * (sin t - sin B) ^ 2 <= a ^ 2 * (sin t - sin B) ^ 2) by (apply Rmult_le_compat_r; [apply sq_nonneg|nra]).
      assert (Hcos : (sin t - sin B) ^ 2 + (cos t - cos B) ^ 2 = 2 * (1 - cos (B - t))).
      { rewrite cos_minus. pose proof (sin_pow2 t). pose proof (sin_pow2 B). nra. }
      assert (0 <= cos (B - t)) by (apply cos_ge_0; apply Rabs_def2 in G1; lra).
      pose proof (COS_bound (B - t)). pose proof (sin_pow2 (B - t)).
      assert (1 - cos (B - t) <= sin (B - t) ^ 2) by nra.
      assert (sin (B - t) ^ 2 <= (2 / 3 * err / b) ^ 2) by (rewrite <- pow2_abs; apply pow_incr; split; [apply Rabs_pos|assumption]).
      assert (a ^ 2 * (2 * sin (B - t) ^ 2) <= a ^ 2 * (2 * (2 / 3 * err / b) ^ 2)) by (apply Rmult_le_compat_l; nra).
      assert (a ^ 2 * (2 * (2 / 3 * err / b) ^ 2) <= (2 * b ^ 2) * (2 * (2 / 3 * err / b) ^ 2)) by (apply Rmult_le_compat_r; [pose proof (sq_nonneg (2 / 3 * err / b)); lra|assumption]).
      replace ((2 * b ^ 2) * (2 * (2 / 3 * err / b) ^ 2)) with (16 / 9 * err ^ 2) in * by (field; lra).
      pose proof (sq_nonneg err). 
      assert (a ^ 2 * ((sin t - sin B) ^ 2 + (cos t - cos B) ^ 2) <= a ^ 2 * (2 * sin (B - t) ^ 2)) by (rewrite Hcos; apply Rmult_le_compat_l; nra).
      lra. }
    unfold alt, alt_of_beta, inside_dec. fold a b. fold m. rewrite Hins.
    assert (HQp : 0 <= cos p ^ 2 / a ^ 2 + sin p ^ 2 / b ^ 2).
    { apply Rplus_le_le_0_compat; (apply Rmult_le_pos; [apply sq_nonneg | left; apply Rinv_0_lt_compat; apply pow_lt; lra]). }
    assert (H2w : 0 < 2 / w) by (apply Rdiv_lt_0_compat; lra).
    destruct (Rle_lt_dec 0 h) as [H0|H0].
    + destruct (Rlt_dec _ 1) as [Hlt|Hge]; [exfalso; assert (0 <= h * (2 / w + h * (cos p ^ 2 / a ^ 2 + sin p ^ 2 / b ^ 2))) by (apply Rmult_le_pos; [assumption|]; apply Rplus_le_le_0_compat; [lra|now apply Rmult_le_pos]); lra|]. rewrite (Rabs_pos_eq h) in Hm by assumption. assumption.
    + destruct (Rlt_dec _ 1) as [Hlt|Hge].
      * rewrite (Rabs_left h) in Hm by assumption. replace (- m - h) with (- (m - - h)) by ring. now rewrite Rabs_Ropp.
      * exfalso. apply Hge.
        assert (Hk : cos p ^ 2 / a ^ 2 + sin p ^ 2 / b ^ 2 <= / b ^ 2).
        { apply Rle_trans with (cos p ^ 2 / b ^ 2 + sin p ^ 2 / b ^ 2).
          - apply Rplus_le_compat_r. unfold Rdiv. apply Rmult_le_compat_l; [apply sq_nonneg|]. apply Rinv_le_contravar; [assumption|apply pow_incr; lra].
          - right. replace (sin p ^ 2) with (1 - cos p ^ 2) by (pose proof (sin_pow2 p); lra). field. lra. }
        set (q := cos p ^ 2 / a ^ 2 + sin p ^ 2 / b ^ 2) in *. clear - Hk Hb' Hb2 H0 Hh Hwa Hab H2w Hw. clearbody q.
        assert (0 < 2 / w + h * q).
        2:{ assert (0 < - h * (2 / w + h * q)) by (apply Rmult_lt_0_compat; lra). lra. }
        assert (h * / b ^ 2 <= h * q).
        { replace (h * q) with (- (- h * q)) by ring. replace (h * / b ^ 2) with (- (- h * / b ^ 2)) by ring.
          apply Ropp_le_contravar. apply Rmult_le_compat_l; lra. }
        assert (- (b / 8) * / b ^ 2 <= h * / b ^ 2) by (apply Rmult_le_compat_r; [left; now apply Rinv_0_lt_compat|lra]).
        replace (- (b / 8) * / b ^ 2) with (- (1 / 8) * / b) in * by (field; lra).
        assert (2 / (1415 / 1000 * b) <= 2 / w) by (unfold Rdiv; apply Rmult_le_compat_l; [lra|apply Rinv_le_contravar; lra]).
        replace (2 / (1415 / 1000 * b)) with (2 / (1415 / 1000) * / b) in * by (field; lra).
        assert (0 < / b) by now apply Rinv_0_lt_compat. lra.
  - (* distance *)
    rewrite Hw', C1, C2.
    replace ((a ^ 2 / (a * b / g) + alt) * (b * cos B / g)) with (a * cos B + alt * (b * cos B / g)) by (field; lra).
    replace ((b ^ 2 / (a * b / g) + alt) * (a * sin B / g)) with (b * sin B + alt * (a * sin B / g)) by (field; lra).
    eapply Rle_trans; [exact Hsh|]. change (a * hypot x y * sin B - b * z * cos B - (a ^ 2 - b ^ 2) * (sin B * cos B)) with f.
    assert ((f / b) ^ 2 <= (2 / 3 * err) ^ 2); [|pose proof (sq_nonneg err); lra].
    rewrite <- (pow2_abs (f / b)). apply pow_incr. split; [apply Rabs_pos|]. unfold Rdiv at 1. rewrite Rabs_mult, (Rabs_pos_eq (/ b)) by (left; now apply Rinv_0_lt_compat).
    apply Rmult_le_reg_r with b; [assumption|]. rewrite Rmult_assoc, Rinv_l by lra. lra.
Qed.
End GAP.

(** At the level of the two functions. *)
Lemma accuracy ell lat lon h deg :
  ell_ok ell -> ell_a ell ^ 2 <= 2 * ell_b ell ^ 2 ->
  - quarter deg < lat < quarter deg -> - half deg < lon <= half deg -> - (ell_b ell / 8) <= h ->
  let err := you_err (resolve_ellipsoid ell) h in
  let P := geodetic2ecef lat lon h ell deg in
  let '(x, y, z) := P in
  let '(lat', lon', h') := ecef2geodetic x y z ell deg in
  lon' = lon /\ - quarter deg < lat' < quarter deg /\
  Rabs (as_rad deg lat' - as_rad deg lat) <= 2 * err / ell_b ell /\ Rabs (h' - h) <= 2 * err /\
  vdist3 (geodetic2ecef lat' lon' h' ell deg) P <= err.
Proof.
  intros Hok Hflat Hlat Hlon Hh. cbv zeta.
  destruct (ell_pos ell Hok) as [Hb Ha].
  pose proof (resolve_valid ell Hok) as He.
  pose proof (resolve_a ell) as Ra. pose proof (resolve_b ell) as Rb.
  pose proof (quarter_rad deg lat Hlat) as Hp. 
  destruct (geodetic2ecef lat lon h ell deg) as [[x y] z] eqn:EP.
  rewrite (g2e_unfold ell Hok) in EP. cbv zeta in EP.
  set (p := as_rad deg lat) in *. set (l := as_rad deg lon) in *.
  set (w := hypot (ell_a ell * cos p) (ell_b ell * sin p)) in *.
  assert (Hc : 0 < cos p) by (apply cos_gt_0; lra).
  pose proof (acbs_pos (ell_a ell) (ell_b ell) p Hb Ha) as Hw. fold w in Hw.
  assert (HN : 0 < ell_a ell ^ 2 / w + h).
  { assert (Hwa : w <= ell_a ell).
    { apply Rsqr_incr_0_var; [|lra]. rewrite !Rsqr_pow2. unfold w. rewrite hypot_pow2, !Rpow_mult_distr.
      pose proof (sin_pow2 p). pose proof (sq_nonneg (sin p)). assert (ell_b ell ^ 2 <= ell_a ell ^ 2) by (apply pow_incr; lra). nra. }
    assert (ell_a ell <= ell_a ell ^ 2 / w).
    { apply Rmult_le_reg_r with w; [assumption|]. unfold Rdiv. rewrite Rmult_assoc, Rinv_l, Rmult_1_r by lra. nra. }
    lra. }
  assert (Hr : hypot x y = (ell_a ell ^ 2 / w + h) * cos p).
  { inversion EP. apply hypot_polar. apply Rmult_le_pos; lra. }
  assert (Hz : z = (ell_b ell ^ 2 / w + h) * sin p) by (inversion EP; reflexivity).
  assert (Hlo : deg_out deg (atan2 y x) = lon).
  { inversion EP. unfold l. apply lon_back; [apply Rmult_lt_0_compat; lra|assumption]. }
  assert (Hx : x = hypot x y * cos l) by (rewrite Hr; inversion EP; reflexivity).
  assert (Hy : y = hypot x y * sin l) by (rewrite Hr; inversion EP; reflexivity).
  clear EP.
  pose proof (acc_core (resolve_ellipsoid ell) He) as AC. rewrite Ra, Rb in AC.
  specialize (AC Hflat x y z p h Hp Hh Hr Hz). cbv zeta in AC.
  unfold ecef2geodetic. cbv zeta.
  set (B := beta_scalar (resolve_ellipsoid ell) x y z) in *.
  set (L := lat_scalar (resolve_ellipsoid ell) B) in *.
  set (A := alt_of_beta (resolve_ellipsoid ell) x y z B (cos B)) in *.
  set (err := you_err (resolve_ellipsoid ell) h) in *.
  destruct AC as (A1 & A2 & A3 & A4 & A5).
  rewrite Hlo, as_rad_deg_out.
  split; [reflexivity|]. split; [now apply quarter_out|]. split; [exact A2|]. split; [exact A3|].
  rewrite (g2e_unfold ell Hok). cbv zeta. rewrite as_rad_deg_out. fold l.
  set (w' := hypot (ell_a ell * cos L) (ell_b ell * sin L)) in *.
  unfold vdist3, vsub, vnorm, vdot.
  apply Rsqr_incr_0_var; [|assumption]. rewrite !Rsqr_pow2.
  set (r := hypot x y) in *. clearbody r. rewrite Hx, Hy.
  set (R' := (ell_a ell ^ 2 / w' + A) * cos L) in *. set (Z' := (ell_b ell ^ 2 / w' + A) * sin L) in *.
  rewrite pow2_sqrt'.
  - replace ((R' * cos l - r * cos l) * (R' * cos l - r * cos l) + (R' * sin l - r * sin l) * (R' * sin l - r * sin l) + (Z' - z) * (Z' - z))
      with ((R' - r) ^ 2 * (sin l * sin l + cos l * cos l) + (Z' - z) ^ 2) by ring.
    rewrite sc1. lra.
  - repeat apply Rplus_le_le_0_compat; apply Rle_0_sqr.
Qed.

Lemma err_form ell h : you_err (resolve_ellipsoid ell) h =
  (ell_a ell / ell_b ell) ^ 2 * ((ell_a ell ^ 2 - ell_b ell ^ 2) / ell_b ell ^ 2) ^ 2 *
  (if Rle_dec 0 h then h / 4 * Rmin 1 ((h / ell_b ell) ^ 3) else 2 * (h ^ 4 / ell_b ell ^ 3)).
Proof. unfold you_err. now rewrite resolve_a, resolve_b. Qed.

(** Numbers for WGS-84. *)
Lemma err_wgs84 h H : - H <= h <= H -> 0 <= H <= 6000000 ->
  you_err (resolve_ellipsoid None) h <= (if Rle_dec 0 h then 1 else 8) * (12 / 1000000) * H * (H / 6356752) ^ 3.
Proof.
  intros Hh HH. rewrite err_form. unfold ell_a, ell_b. set (b := 635675231424518 / 100000000).
  assert (Hb : 6356752 <= b) by (unfold b; lra).
  assert (Hk : (6378137 / b) ^ 2 * ((6378137 ^ 2 - b ^ 2) / b ^ 2) ^ 2 <= 48 / 1000000) by (unfold b; lra).
  assert (Hk0 : 0 <= (6378137 / b) ^ 2 * ((6378137 ^ 2 - b ^ 2) / b ^ 2) ^ 2) by (apply Rmult_le_pos; apply sq_nonneg).
  set (k := (6378137 / b) ^ 2 * ((6378137 ^ 2 - b ^ 2) / b ^ 2) ^ 2) in *. clearbody k.
  assert (Hbi : 0 < / b <= / 6356752) by (split; [apply Rinv_0_lt_compat|apply Rinv_le_contravar]; lra).
  destruct (Rle_dec 0 h) as [H0|H0].
  - assert (0 <= h / b <= H / 6356752) by (unfold Rdiv; split; [apply Rmult_le_pos|apply Rmult_le_compat]; lra).
    assert ((h / b) ^ 3 <= (H / 6356752) ^ 3) by (apply pow_incr; assumption).
    assert (0 <= (h / b) ^ 3) by (apply pow_le; lra).
    assert (M : h / 4 * Rmin 1 ((h / b) ^ 3) <= H / 4 * (H / 6356752) ^ 3).
    { apply Rmult_le_compat; try lra. - apply Rmin_glb; lra. - eapply Rle_trans; [apply Rmin_r|assumption]. }
    assert (M0 : 0 <= H / 4 * (H / 6356752) ^ 3) by (apply Rmult_le_pos; [lra|apply pow_le; lra]).
    apply Rle_trans with (48 / 1000000 * (H / 4 * (H / 6356752) ^ 3)); [|lra].
    apply Rle_trans with (k * (H / 4 * (H / 6356752) ^ 3)); [apply Rmult_le_compat_l; assumption|apply Rmult_le_compat_r; assumption].
  - assert (Q : h ^ 4 / b ^ 3 = - h * (- h / b) ^ 3) by (field; lra). rewrite Q.
    assert (0 <= - h / b <= H / 6356752) by (unfold Rdiv; split; [apply Rmult_le_pos|apply Rmult_le_compat]; lra).
    assert ((- h / b) ^ 3 <= (H / 6356752) ^ 3) by (apply pow_incr; assumption).
    assert (0 <= (- h / b) ^ 3) by (apply pow_le; lra).
    assert (M : - h * (- h / b) ^ 3 <= H * (H / 6356752) ^ 3) by (apply Rmult_le_compat; lra).
    assert (M0 : 0 <= H * (H / 6356752) ^ 3) by (apply Rmult_le_pos; [lra|apply pow_le; lra]).
    apply Rle_trans with (48 / 1000000 * (2 * (H * (H / 6356752) ^ 3))); [|lra].
    apply Rle_trans with (k * (2 * (H * (H / 6356752) ^ 3))); [apply Rmult_le_compat_l; lra|apply Rmult_le_compat_r; lra].
Qed.
