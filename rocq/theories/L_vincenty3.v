(** Lemmas on vdist: the scalar loop on spheres, equators and meridians. *)
From Coq Require Import Lia Psatz.
From Coquelicot Require Import Coquelicot.
From Verif Require Import PyMath L_PyMath M_ellipsoid M_vincenty Spec L_ell L_aer L_nvector L_vincenty L_vincenty2.
From Verif Require L_lox L_ecef.
Open Scope R_scope.

Lemma rad_in_bounds deg lat : - quarter deg <= lat <= quarter deg <-> - (PI/2) <= rad_in deg lat <= PI/2.
Proof.
  pose proof PI_RGT_0 as P. destruct deg; cbn [quarter rad_in]; [|lra]. unfold radians. split; intros [H1 H2].
  - split; nra.
  - split; [apply Rmult_le_reg_r with (PI / 180); nra | apply Rmult_le_reg_r with (PI / 180); nra].
Qed.
Lemma guard_split lat1 lat2 : (lat_out_of_range lat1 || lat_out_of_range lat2)%bool = false <->
  (- (PI/2) <= lat1 <= PI/2) /\ (- (PI/2) <= lat2 <= PI/2).
Proof. rewrite Bool.orb_false_iff, !out_of_range_false. tauto. Qed.
(** vdist opened up. *)
Definition vU (ell : option Ellipsoid) (deg : bool) (lat : R) : R :=
  reduced_lat (flattening (resolve_ellipsoid ell)) (nudge_pole (rad_in deg lat)).
Lemma vdist_ok lat1 lon1 lat2 lon2 ell deg :
  - quarter deg <= lat1 <= quarter deg -> - quarter deg <= lat2 <= quarter deg ->
  vdist lat1 lon1 lat2 lon2 ell deg =
  (let f := flattening (resolve_ellipsoid ell) in let L := lon_gap (rad_in deg lon1) (rad_in deg lon2) in
   let r := vdist_loop 50 f L (vU ell deg lat1) (vU ell deg lat2) L (0, 0, 0) in
   Ok (vdist_length (ell_a ell) (ell_b ell) (snd r),
       deg_out deg (vdist_azimuth (vU ell deg lat1) (vU ell deg lat2) (rad_in deg lon1) (rad_in deg lon2) (fst r)))).
Proof.
  intros H1 H2. apply rad_in_bounds in H1, H2. unfold vdist.
  rewrite (proj2 (guard_split _ _) (conj H1 H2)), resolve_a, resolve_b. unfold vU. cbv zeta.
  destruct (vdist_loop _ _ _ _ _ _ _) as [l s]. reflexivity.
Qed.
Lemma vdist_guard lat1 lon1 lat2 lon2 ell deg :
  ~ (- quarter deg <= lat1 <= quarter deg /\ - quarter deg <= lat2 <= quarter deg) ->
  vdist lat1 lon1 lat2 lon2 ell deg = Raise ValueError.
Proof.
  intros H. unfold vdist. destruct (_ || _)%bool eqn:E; [reflexivity|]. apply guard_split in E. exfalso. apply H.
  now rewrite !rad_in_bounds.
Qed.
Lemma deg_out_range deg x : 0 <= x < tau -> 0 <= deg_out deg x < full deg.
Proof. intros [A B]. rewrite <- (deg_out_full deg). split; [rewrite <- (deg_out_0 deg); now apply deg_out_le|now apply deg_out_lt]. Qed.

(** Coincident points. *)
Lemma v_cs_same U : v_cs U U 0 = 1.
Proof. unfold v_cs. rewrite cos_0. pose proof (sc1 U). lra. Qed.
Lemma v_sigma_same U : v_sigma U U 0 = 0.
Proof. rewrite v_sigma_acos, v_cs_same. apply acos_1. Qed.
Lemma v_alpha_0 : v_alpha 0 = 0.
Proof.
  unfold v_alpha. destruct (Rlt_dec 1 0); [lra|]. destruct (Rlt_dec _ _) as [H|H]; [|apply asin_0].
  exfalso. revert H. apply Rle_not_lt. rewrite Rminus_0_l, Rabs_Ropp, Rabs_R1. lra.
Qed.
Lemma v_lamb_alpha0 f L s c : v_lamb f L s 0 c = L.
Proof. unfold v_lamb. cbv zeta. rewrite sin_0. ring. Qed.
Lemma no_gap x : Rabs (x - x) = 0. Proof. rewrite Rminus_diag_eq by reflexivity. apply Rabs_R0. Qed.
Lemma e12 : 0 < 1 / 10 ^ 12. Proof. apply Rdiv_lt_0_compat; [lra|apply pow_lt; lra]. Qed.
(** Whenever the first pass returns the starting longitude, the loop ends there. *)
Lemma vdist_loop_fix n f L U1 U2 l s0 : l <= PI ->
  let sigma := v_sigma U1 U2 l in let alpha := v_alpha (v_sinAlpha U1 U2 l) in let c2 := v_cos2sigmam U1 U2 l alpha in
  v_lamb f L sigma alpha c2 = l ->
  vdist_loop (S n) f L U1 U2 l s0 = (l, (sigma, alpha, c2)).
Proof.
  intros H1 sigma alpha c2 E. cbn [vdist_loop]. fold sigma. fold alpha. fold c2. rewrite E.
  destruct (Rlt_dec PI l); [lra|]. rewrite no_gap. destruct (Rlt_dec _ 0) as [X|X]; [pose proof e12; lra|reflexivity].
Qed.
Lemma vdist_loop_coincident n f U s0 :
  vdist_loop (S n) f 0 U U 0 s0 = (0, (0, 0, v_cos2sigmam U U 0 0)).
Proof.
  assert (A : v_alpha (v_sinAlpha U U 0) = 0).
  { unfold v_sinAlpha. rewrite v_sigma_same, sin_0. destruct (Req_EM_T 0 0); [apply v_alpha_0|congruence]. }
  pose proof (vdist_loop_fix n f 0 U U 0 s0 ltac:(pose proof PI_RGT_0; lra)) as H. cbv zeta in H.
  rewrite v_sigma_same, A in H. apply H. apply v_lamb_alpha0.
Qed.
Lemma vdist_length_0 a b c2 al : vdist_length a b (0, al, c2) = 0.
Proof. unfold vdist_length, vin_deltasigma. rewrite sin_0. ring. Qed.

(** f = 0. *)
Lemma v_lamb_sphere L s al c : v_lamb 0 L s al c = L.
Proof. unfold v_lamb. cbv zeta. ring. Qed.
Lemma vdist_loop_sphere n L U1 U2 s0 : L <= PI ->
  vdist_loop (S n) 0 L U1 U2 L s0 =
  (L, (v_sigma U1 U2 L, v_alpha (v_sinAlpha U1 U2 L), v_cos2sigmam U1 U2 L (v_alpha (v_sinAlpha U1 U2 L)))).
Proof. intros H. apply vdist_loop_fix; [exact H|]. apply v_lamb_sphere. Qed.
Lemma vin_A_0 : vin_A 0 = 1. Proof. unfold vin_A. lra. Qed.
Lemma vin_B_0 : vin_B 0 = 0. Proof. unfold vin_B. lra. Qed.
Lemma vin_ds_0 s c d : vin_deltasigma 0 s c d = 0. Proof. unfold vin_deltasigma. ring. Qed.
Lemma vdist_length_sphere a s : let '(sigma, _, _) := s in vdist_length a a s = a * sigma.
Proof.
  destruct s as [[sg al] c2]. unfold vdist_length. replace (cos al ^ 2 * (a ^ 2 - a ^ 2) / a ^ 2) with 0 by (unfold Rdiv; ring).
  rewrite vin_A_0, vin_B_0, vin_ds_0. ring.
Qed.
Lemma sphere_f ell : ell_ok ell -> ell_a ell = ell_b ell -> flattening (resolve_ellipsoid ell) = 0.
Proof. intros H E. rewrite (ell_f ell H), E. unfold Rdiv. ring. Qed.
Lemma vU_sphere ell deg lat : ell_ok ell -> ell_a ell = ell_b ell -> - quarter deg <= lat <= quarter deg ->
  vU ell deg lat = nudge_pole (rad_in deg lat).
Proof.
  intros H E B. unfold vU. rewrite (sphere_f ell H E). apply reduced_sphere. apply rad_in_bounds in B.
  pose proof (nudge_range _ B) as Nn. pose proof ten10. lra.
Qed.
Lemma v_cs_dot U1 U2 l1 l2 : v_cs U1 U2 (lon_gap l1 l2) = vdot (unit_normal U1 l1) (unit_normal U2 l2).
Proof. unfold v_cs. rewrite cos_gap, cos_minus. cbn. ring. Qed.
Lemma v_sigma_angle U1 U2 l1 l2 : v_sigma U1 U2 (lon_gap l1 l2) = unit_angle (unit_normal U1 l1) (unit_normal U2 l2).
Proof. rewrite v_sigma_acos, v_cs_dot. reflexivity. Qed.
(** The bearing from (U1, l1) to (U2, l2). *)
Definition gc_bearing (U1 l1 U2 l2 : R) : R :=
  py_mod (atan2 (vdot (unit_normal U2 l2) (east_axis U1 l1)) (vdot (unit_normal U2 l2) (north_axis U1 l1))) tau.
Lemma bearing_E U1 l1 U2 l2 : vdot (unit_normal U2 l2) (east_axis U1 l1) = cos U2 * sin (l2 - l1).
Proof. rewrite sin_minus. cbn. ring. Qed.
Lemma bearing_N U1 l1 U2 l2 : vdot (unit_normal U2 l2) (north_axis U1 l1) = cos U1 * sin U2 - sin U1 * cos U2 * cos (l2 - l1).
Proof. rewrite cos_minus. cbn. ring. Qed.
Lemma vdist_azimuth_gap U1 U2 l1 l2 : vdist_azimuth U1 U2 l1 l2 (lon_gap l1 l2) = gc_bearing U1 l1 U2 l2.
Proof.
  rewrite vdist_azimuth_eq. destruct (signed_gap l1 l2) as [-> ->]. unfold gc_bearing. rewrite bearing_E, bearing_N. reflexivity.
Qed.
Lemma vdist_sphere_val lat1 lon1 lat2 lon2 ell deg : ell_ok ell -> ell_a ell = ell_b ell ->
  - quarter deg <= lat1 <= quarter deg -> - quarter deg <= lat2 <= quarter deg ->
  let p1 := nudge_pole (rad_in deg lat1) in let p2 := nudge_pole (rad_in deg lat2) in
  let l1 := rad_in deg lon1 in let l2 := rad_in deg lon2 in
  vdist lat1 lon1 lat2 lon2 ell deg =
  Ok (ell_a ell * unit_angle (unit_normal p1 l1) (unit_normal p2 l2), deg_out deg (gc_bearing p1 l1 p2 l2)).
Proof.
  intros H E H1 H2 p1 p2 l1 l2. rewrite (vdist_ok _ _ _ _ _ _ H1 H2). cbv zeta.
  rewrite (sphere_f ell H E), !(vU_sphere ell deg) by assumption. fold p1 p2 l1 l2.
  rewrite vdist_loop_sphere by apply lon_gap_range. cbn [fst snd]. rewrite vdist_azimuth_gap.
  rewrite <- E. rewrite (vdist_length_sphere (ell_a ell) (_, _, _)). rewrite v_sigma_angle. reflexivity.
Qed.
(** How far the pole adjustment moves a point. *)
Lemma nudge_close lat : - (PI/2) <= lat <= PI/2 -> Rabs (nudge_pole lat - lat) <= 1 / 10 ^ 10.
Proof.
  intros H. pose proof ten10 as T. pose proof pi_gt3 as P. unfold nudge_pole. set (t := 1 / 10 ^ 10) in *. destruct (Rlt_dec _ _) as [H1|H1].
  2: { rewrite no_gap. lra. }
  assert (A : Rabs lat <= PI/2) by (apply Rabs_le; lra). rewrite Rabs_right in H1 by lra. unfold sign.
  destruct (Rlt_dec lat 0) as [N|N]; [rewrite (Rabs_left lat) in * by lra; apply Rabs_le; lra|].
  rewrite (Rabs_right lat) in * by lra. destruct (Rlt_dec 0 lat); [|exfalso; lra]. apply Rabs_le; lra.
Qed.
Lemma angle_same_lon p q l : Rabs (p - q) <= PI -> unit_angle (unit_normal p l) (unit_normal q l) = Rabs (p - q).
Proof.
  intros H. unfold unit_angle. replace (vdot (unit_normal p l) (unit_normal q l)) with (cos (Rabs (p - q))).
  - apply acos_cos. split; [apply Rabs_pos|exact H].
  - replace (cos (Rabs (p - q))) with (cos (p - q)) by (unfold Rabs; destruct (Rcase_abs _); [now rewrite cos_neg|reflexivity]).
    rewrite cos_minus. cbn. pose proof (sc1 l) as S. replace (cos p * cos l * (cos q * cos l) + cos p * sin l * (cos q * sin l) + sin p * sin q)
      with (cos p * cos q * (sin l * sin l + cos l * cos l) + sin p * sin q) by ring. rewrite S. ring.
Qed.

(** Positivity. *)
Lemma vin_dsig_le B s c d : 0 <= B <= 1/4 -> Rabs s <= 1 -> Rabs c <= 1 -> Rabs d <= 1 -> 
  Rabs (vin_deltasigma B s c d) <= 2 / 3 * Rabs s.
Proof.
  intros HB Hs Hc Hd. unfold vin_deltasigma.
  assert (T1 : Rabs (c * (-1 + 2 * d ^ 2)) <= 1) by (replace 1 with (1 * 1) by ring; apply Rabs_mul_le; [assumption|now apply abs_poly1]).
  assert (T2 : Rabs (d * (-3 + 4 * s ^ 2) * (-3 + 4 * d ^ 2)) <= 9).
  { replace 9 with (1 * 3 * 3) by ring. apply Rabs_mul_le; [apply Rabs_mul_le; [assumption|now apply abs_poly3]|now apply abs_poly3]. }
  replace (B * s * (d + B / 4 * (c * (-1 + 2 * d ^ 2) - B / 6 * d * (-3 + 4 * s ^ 2) * (-3 + 4 * d ^ 2))))
    with (B * (d + B / 4 * (c * (-1 + 2 * d ^ 2) - B / 6 * (d * (-3 + 4 * s ^ 2) * (-3 + 4 * d ^ 2)))) * s) by ring.
  rewrite Rabs_mult. apply Rmult_le_compat_r; [apply Rabs_pos|].
  set (t1 := c * (-1 + 2 * d ^ 2)) in *. set (t2 := d * (-3 + 4 * s ^ 2) * (-3 + 4 * d ^ 2)) in *.
  assert (AB : Rabs B <= 1 / 4) by (rewrite Rabs_right; lra).
  apply Rle_trans with (1 / 4 * (1 + (1 / 4) / 4 * (1 + (1 / 4) / 6 * 9))); [|lra].
  apply Rabs_mul_le; [assumption|]. apply Rabs_add_le; [assumption|].
  apply Rabs_mul_le; [unfold Rdiv; apply Rabs_mul_le; [assumption|rewrite Rabs_right; lra]|].
  unfold Rminus. apply Rabs_add_le; [assumption|]. rewrite Rabs_Ropp.
  apply Rabs_mul_le; [unfold Rdiv; apply Rabs_mul_le; [assumption|rewrite Rabs_right; lra]|assumption].
Qed.
Lemma v_alpha_cases U1 U2 l : sin (v_sigma U1 U2 l) <> 0 ->
  v_alpha (v_sinAlpha U1 U2 l) = PI / 2 \/
  cos (v_alpha (v_sinAlpha U1 U2 l)) ^ 2 * sin (v_sigma U1 U2 l) ^ 2
    = sin U1 ^ 2 + sin U2 ^ 2 - 2 * sin U1 * sin U2 * v_cs U1 U2 l.
Proof.
  intros H. unfold v_sinAlpha. destruct (Req_EM_T _ 0) as [X|_]; [contradiction|].
  set (ss := sin (v_sigma U1 U2 l)) in *. set (x := cos U1 * cos U2 * sin l / ss). unfold v_alpha.
  destruct (Rlt_dec 1 x) as [A|A]; [now left|]. destruct (Rlt_dec _ _) as [B|B]; [now left|]. right.
  destruct (v_sigma_sin U1 U2 l) as [S1 S2]. fold ss in S1, S2. rewrite vs_cs in S2.
  assert (K : x * ss = cos U1 * cos U2 * sin l) by (unfold x; field; assumption).
  pose proof (sc1 U1) as E1. pose proof (sc1 U2) as E2. pose proof (sc1 l) as E3.
  assert (M : ss ^ 2 - (x * ss) ^ 2 = sin U1 ^ 2 + sin U2 ^ 2 - 2 * sin U1 * sin U2 * v_cs U1 U2 l).
  { rewrite K, S2. unfold v_cs.
    replace ((cos U1 * cos U2 * sin l) ^ 2) with (cos U1 * cos U1 * (cos U2 * cos U2) * (sin l * sin l)) by ring.
    replace (sin l * sin l) with (1 - cos l * cos l) by lra.
    transitivity (1 - sin U1 * sin U1 * (sin U2 * sin U2) - 2 * sin U1 * sin U2 * (cos U1 * cos U2 * cos l) - (cos U1 * cos U1) * (cos U2 * cos U2)); [ring|].
    replace (cos U1 * cos U1) with (1 - sin U1 * sin U1) by lra. replace (cos U2 * cos U2) with (1 - sin U2 * sin U2) by lra. ring. }
  assert (X1 : -1 <= x <= 1).
  { assert (0 <= ss ^ 2 - (x * ss) ^ 2).
    { rewrite M. pose proof (v_cs_range U1 U2 l) as Q. set (c := v_cs U1 U2 l) in *. set (u := sin U1). set (v := sin U2).
      pose proof (pow2_ge_0 (u - v)). pose proof (pow2_ge_0 (u + v)). nra. }
    assert (0 < ss) by lra. assert (Z : 0 <= 1 - x ^ 2) by (apply Rmult_le_reg_r with (ss ^ 2); nra). nra. }
  rewrite <- M. rewrite cos_asin by exact X1. rewrite pow2_sqrt by (unfold Rsqr; nra). unfold Rsqr. ring.
Qed.
Lemma c2_range U1 U2 l : sin (v_sigma U1 U2 l) <> 0 ->
  Rabs (v_cos2sigmam U1 U2 l (v_alpha (v_sinAlpha U1 U2 l))) <= 1.
Proof.
  intros H. unfold v_cos2sigmam. destruct (v_sigma_cs U1 U2 l) as [C _]. pose proof (v_cs_range U1 U2 l) as Q. rewrite C.
  destruct (v_alpha_cases U1 U2 l H) as [E|E].
  - rewrite E, cos_PI2. replace (2 * sin U1 * sin U2 / 0 ^ 2) with 0 by (unfold Rdiv; replace (0 ^ 2) with 0 by ring; rewrite Rinv_0; ring).
    apply Rabs_le. lra.
  - set (k := cos (v_alpha _) ^ 2) in *. destruct (v_sigma_sin U1 U2 l) as [S1 _].
    assert (SS : sin (v_sigma U1 U2 l) ^ 2 = 1 - v_cs U1 U2 l ^ 2) by (rewrite sin_pow2, C; reflexivity).
    rewrite SS in E. set (c := v_cs U1 U2 l) in *. set (u := sin U1) in *. set (v := sin U2) in *.
    assert (P : 0 < 1 - c ^ 2) by (rewrite <- SS; nra).
    assert (Kn : 0 <= k) by (unfold k; apply pow2_ge_0).
    assert (C1 : -1 < c < 1) by nra.
    destruct (Req_EM_T k 0) as [K0|K0].
    { rewrite K0. unfold Rdiv. rewrite Rinv_0, Rmult_0_r, Rminus_0_r. apply Rabs_le. lra. }
    assert (Kp : 0 < k) by lra.
    assert (A1 : 0 <= k * (1 - c) + 2 * u * v).
    { apply Rmult_le_reg_r with (1 + c); [lra|]. rewrite Rmult_0_l. replace ((k * (1 - c) + 2 * u * v) * (1 + c)) with (k * (1 - c ^ 2) + 2 * u * v * (1 + c)) by ring.
      rewrite E. pose proof (pow2_ge_0 (u + v)). lra. }
    assert (A2 : 0 <= k * (1 + c) - 2 * u * v).
    { apply Rmult_le_reg_r with (1 - c); [lra|]. rewrite Rmult_0_l. replace ((k * (1 + c) - 2 * u * v) * (1 - c)) with (k * (1 - c ^ 2) - 2 * u * v * (1 - c)) by ring.
      rewrite E. pose proof (pow2_ge_0 (u - v)). lra. }
    apply Rabs_le. replace (c - 2 * u * v / k) with ((k * c - 2 * u * v) / k) by (field; lra).
    split; apply Rmult_le_reg_r with k; try lra; unfold Rdiv; rewrite Rmult_assoc, Rinv_l by lra; lra.
Qed.
(** The state the loop leaves behind always comes from some lamb in [L, pi]. *)
Lemma v_sinAlpha_nonneg U1 U2 l : - PI/2 < U1 < PI/2 -> - PI/2 < U2 < PI/2 -> 0 <= l <= PI -> 0 <= v_sinAlpha U1 U2 l.
Proof.
  intros H1 H2 H. unfold v_sinAlpha. destruct (Req_EM_T _ 0) as [X|X]; [lra|]. destruct (v_sigma_sin U1 U2 l) as [S1 _].
  assert (0 < cos U1) by (apply cos_gt_0; lra). assert (0 < cos U2) by (apply cos_gt_0; lra). assert (0 <= sin l) by (apply sin_ge_0; lra).
  apply Rmult_le_pos; [apply Rmult_le_pos; [apply Rmult_le_pos; lra|assumption]|]. left. apply Rinv_0_lt_compat. lra.
Qed.
Lemma v_alpha_range x : 0 <= x -> 0 <= v_alpha x <= PI/2.
Proof.
  intros H. pose proof PI_RGT_0. unfold v_alpha. destruct (Rlt_dec 1 x); [lra|]. destruct (Rlt_dec _ _); [lra|].
  pose proof (asin_bound x). split; [|lra]. apply Rnot_lt_le. intros N. assert (x < 0); [|lra]. rewrite <- (sin_asin x) by lra. apply sin_lt_0_var; lra.
Qed.
Lemma v_C_range f al : 0 <= f <= 1 -> 0 <= v_C f al <= 1/2.
Proof.
  intros H. unfold v_C. pose proof (pow2_ge_0 (cos al)). pose proof (cos_le1 al). set (k := cos al ^ 2) in *.
  assert (0 <= 4 + f * (4 - 3 * k) <= 8) by nra. assert (0 <= f / 16 * k <= 1 / 16) by nra. nra.
Qed.
Lemma v_lamb_ge f L U1 U2 l : 0 <= f <= 1 -> - PI/2 < U1 < PI/2 -> - PI/2 < U2 < PI/2 -> 0 <= l <= PI ->
  let al := v_alpha (v_sinAlpha U1 U2 l) in L <= v_lamb f L (v_sigma U1 U2 l) al (v_cos2sigmam U1 U2 l al).
Proof.
  intros Hf H1 H2 Hl al. unfold v_lamb. cbv zeta. pose proof (v_C_range f al Hf) as HC. set (C := v_C f al) in *.
  pose proof (v_alpha_range _ (v_sinAlpha_nonneg U1 U2 l H1 H2 Hl)) as A. fold al in A.
  assert (0 <= sin al) by (apply sin_ge_0; lra).
  destruct (v_sigma_cs U1 U2 l) as [_ Sr]. set (sg := v_sigma U1 U2 l) in *.
  assert (K : 0 <= sg + C * sin sg * (v_cos2sigmam U1 U2 l al + C * cos sg * (-1 + 2 * v_cos2sigmam U1 U2 l al ^ 2))).
  { destruct (Req_EM_T (sin sg) 0) as [Z|Z]; [rewrite Z; lra|].
    assert (S0 : 0 <= sin sg) by (apply sin_ge_0; lra).
    assert (Sle : sin sg <= sg) by (destruct (Req_EM_T sg 0) as [->|]; [rewrite sin_0; lra|left; apply sin_lt_x; lra]).
    pose proof (c2_range U1 U2 l Z) as D. fold al in D. set (d := v_cos2sigmam U1 U2 l al) in *.
    assert (T : Rabs (C * (d + C * cos sg * (-1 + 2 * d ^ 2))) <= 1/2 * (1 + 1/2 * 1 * 1)).
    { apply Rabs_mul_le; [rewrite Rabs_right; lra|]. apply Rabs_add_le; [assumption|].
      apply Rabs_mul_le; [apply Rabs_mul_le; [rewrite Rabs_right; lra|apply abs_cos]|now apply abs_poly1]. }
    apply Rabs_le_between in T. replace (C * sin sg * (d + C * cos sg * (-1 + 2 * d ^ 2))) with (sin sg * (C * (d + C * cos sg * (-1 + 2 * d ^ 2)))) by ring.
    nra. }
  assert (0 <= (1 - C) * f * sin al) by (apply Rmult_le_pos; [apply Rmult_le_pos; lra|assumption]). nra.
Qed.
Definition v_state_of (U1 U2 l : R) : vstate :=
  let al := v_alpha (v_sinAlpha U1 U2 l) in (v_sigma U1 U2 l, al, v_cos2sigmam U1 U2 l al).
Lemma vdist_loop_inv f L U1 U2 : 0 <= f <= 1 -> - PI/2 < U1 < PI/2 -> - PI/2 < U2 < PI/2 -> 0 <= L ->
  forall n l s, L <= l <= PI -> (s = (0,0,0) \/ exists l', L <= l' <= PI /\ s = v_state_of U1 U2 l') -> (n <> O \/ s <> (0,0,0)) ->
  exists l', L <= l' <= PI /\ snd (vdist_loop n f L U1 U2 l s) = v_state_of U1 U2 l'.
Proof.
  intros Hf H1 H2 HL. induction n as [|n IH]; intros l s Hl Hs Hn.
  - cbn. destruct Hs as [Hs|Hs]; [destruct Hn; contradiction|exact Hs].
  - cbn [vdist_loop]. pose proof (v_lamb_ge f L U1 U2 l Hf H1 H2 ltac:(lra)) as G. cbv zeta in G.
    set (al := v_alpha (v_sinAlpha U1 U2 l)) in *. set (l' := v_lamb _ _ _ _ _) in *.
    assert (ST : (v_sigma U1 U2 l, al, v_cos2sigmam U1 U2 l al) = v_state_of U1 U2 l) by reflexivity.
    destruct (Rlt_dec PI l'); [exists l; split; [assumption|reflexivity]|].
    destruct (Rlt_dec _ _); [|exists l; split; [assumption|reflexivity]].
    rewrite ST. destruct n as [|n'].
    + exists l. split; [assumption|reflexivity].
    + apply IH; [lra|right; exists l; split; [assumption|reflexivity]|left; discriminate].
Qed.
Lemma vdist_length_pos a b U1 U2 l : 0 < b -> b <= a -> a ^ 2 <= 2 * b ^ 2 ->
  0 <= vdist_length a b (v_state_of U1 U2 l) /\ (vdist_length a b (v_state_of U1 U2 l) = 0 <-> v_sigma U1 U2 l = 0).
Proof.
  intros Hb Hab H2. unfold v_state_of, vdist_length. cbv zeta. set (al := v_alpha _). set (u2 := cos al ^ 2 * (a ^ 2 - b ^ 2) / b ^ 2).
  assert (Bp : 0 < b ^ 2) by (apply pow_lt; lra).
  assert (Q : 0 <= (a ^ 2 - b ^ 2) / b ^ 2 <= 1).
  { split; [apply Rmult_le_pos; [|left; apply Rinv_0_lt_compat; lra]; assert (b ^ 2 <= a ^ 2) by (apply pow_incr; lra); lra|].
    apply Rmult_le_reg_r with (b ^ 2); [lra|]. unfold Rdiv. rewrite Rmult_assoc, Rinv_l by lra. lra. }
  assert (U : 0 <= u2 <= 1).
  { unfold u2. replace (cos al ^ 2 * (a ^ 2 - b ^ 2) / b ^ 2) with (cos al ^ 2 * ((a ^ 2 - b ^ 2) / b ^ 2)) by (unfold Rdiv; ring).
    pose proof (pow2_ge_0 (cos al)). pose proof (cos_le1 al). split; [apply Rmult_le_pos; lra|nra]. }
  pose proof (vin_A_range u2 U) as A. pose proof (vin_B_range u2 U) as B.
  destruct (v_sigma_cs U1 U2 l) as [_ Sr]. set (sg := v_sigma U1 U2 l) in *.
  assert (Kp : 0 < b * vin_A u2) by nra.
  assert (D : sg = 0 /\ sg - vin_deltasigma (vin_B u2) (sin sg) (cos sg) (v_cos2sigmam U1 U2 l al) = 0 \/
              0 < sg /\ 0 < sg - vin_deltasigma (vin_B u2) (sin sg) (cos sg) (v_cos2sigmam U1 U2 l al)).
  { destruct (Req_EM_T sg 0) as [Z|Z].
    - left. split; [exact Z|]. rewrite Z. unfold vin_deltasigma. rewrite sin_0. ring.
    - right. split; [lra|]. destruct (Req_EM_T (sin sg) 0) as [S|S].
      + rewrite S. unfold vin_deltasigma. lra.
      + pose proof (c2_range U1 U2 l S) as C2. fold al in C2.
        pose proof (vin_dsig_le (vin_B u2) (sin sg) (cos sg) _ B (abs_sin sg) (abs_cos sg) C2) as V.
        assert (S0 : 0 <= sin sg) by (apply sin_ge_0; lra). assert (sin sg < sg) by (apply sin_lt_x; lra).
        rewrite (Rabs_right (sin sg)) in V by lra. apply Rabs_le_between in V. lra. }
  destruct D as [[D1 D2]|[D1 D2]]; rewrite ?D2.
  - split; [lra|]. split; intros _; [exact D1|ring].
  - assert (0 < b * vin_A u2 * (sg - vin_deltasigma (vin_B u2) (sin sg) (cos sg) (v_cos2sigmam U1 U2 l al))) by (apply Rmult_lt_0_compat; assumption).
    split; [lra|]. split; intros; lra.
Qed.
Lemma v_sigma_0 U1 U2 l : - PI/2 < U1 < PI/2 -> - PI/2 < U2 < PI/2 -> 0 <= l <= PI -> v_sigma U1 U2 l = 0 -> U1 = U2 /\ l = 0.
Proof.
  intros H1 H2 Hl E. destruct (v_sigma_cs U1 U2 l) as [C _]. rewrite E, cos_0 in C. unfold v_cs in C.
  assert (P1 : 0 < cos U1) by (apply cos_gt_0; lra). assert (P2 : 0 < cos U2) by (apply cos_gt_0; lra).
  pose proof (COS_bound l) as Cl. pose proof (COS_bound (U1 - U2)) as Cd. rewrite cos_minus in Cd.
  assert (Pm : 0 < cos U1 * cos U2) by (apply Rmult_lt_0_compat; assumption).
  assert (Cl1 : cos l = 1).
  { assert (0 <= cos U1 * cos U2 * (cos l - 1)) by lra. apply Rle_antisym; [lra|]. apply Rnot_lt_le. intros Z. assert (cos U1 * cos U2 * (cos l - 1) < 0); [|lra]. clear - Pm Z. nra. }
  assert (D : cos (U1 - U2) = 1) by (rewrite cos_minus; rewrite Cl1 in C; lra).
  pose proof PI_RGT_0. split.
  - assert (U1 - U2 = 0) by (apply cos_eq_1_range; lra). lra.
  - apply cos_eq_1_range; lra.
Qed.

(** The equator. *)
Lemma v_sigma_equator l : 0 <= l <= PI -> v_sigma 0 0 l = l.
Proof. intros H. rewrite v_sigma_acos. unfold v_cs. rewrite sin_0, cos_0. replace (0 * 0 + 1 * 1 * cos l) with (cos l) by ring. now apply acos_cos. Qed.
Lemma v_alpha_1 : v_alpha 1 = PI / 2.
Proof. unfold v_alpha. destruct (Rlt_dec 1 1); [lra|]. rewrite no_gap. destruct (Rlt_dec 0 _) as [|N]; [reflexivity|]. exfalso. apply N. apply Rdiv_lt_0_compat; [lra|apply pow_lt; lra]. Qed.
Lemma v_alpha_equator l : 0 < l < PI -> v_alpha (v_sinAlpha 0 0 l) = PI / 2.
Proof.
  intros H. assert (S : 0 < sin l) by (apply sin_gt_0; lra). unfold v_sinAlpha. rewrite v_sigma_equator by lra.
  destruct (Req_EM_T (sin l) 0) as [X|X]; [lra|]. rewrite cos_0. replace (1 * 1 * sin l / sin l) with 1 by (field; exact X). apply v_alpha_1.
Qed.
Lemma v_lamb_equator f L s c : v_lamb f L s (PI/2) c = L + f * s.
Proof. unfold v_lamb, v_C. cbv zeta. rewrite sin_PI2, cos_PI2. ring. Qed.
Lemma vdist_length_equator a b s c : vdist_length a b (s, PI/2, c) = b * s.
Proof.
  unfold vdist_length. rewrite cos_PI2. replace (0 ^ 2 * (a ^ 2 - b ^ 2) / b ^ 2) with 0 by (unfold Rdiv; ring).
  rewrite vin_A_0, vin_B_0, vin_ds_0. ring.
Qed.
(** Iteration l -> L + f l from below the fixed point L/(1-f) < pi. *)
Lemma vdist_loop_equator f L : 0 <= f <= 1/2 -> 0 < L -> L < PI * (1 - f) ->
  forall n m l s, (50 <= n + m)%nat -> (1 <= n)%nat -> L <= l -> l <= L / (1 - f) -> (L + f * l - l) <= L * f * (/ 2) ^ m ->
  exists l' l'' c, vdist_loop n f L 0 0 l s = (l'', (l', PI/2, c)) /\ L <= l' < PI /\ L <= l'' < PI /\ Rabs (l' * (1 - f) - L) <= 1 / 10 ^ 12.
Proof.
  intros Hf HL0 HLP. assert (F : L / (1 - f) < PI) by (apply Rmult_lt_reg_r with (1 - f); [lra|]; unfold Rdiv; rewrite Rmult_assoc, Rinv_l by lra; lra).
  assert (FX : L + f * (L / (1 - f)) = L / (1 - f)) by (field; lra).
  induction n as [|n IH]; intros m l s Hn H1 Hl1 Hl2 G; [lia|]. cbn [vdist_loop].
  rewrite v_alpha_equator by lra. rewrite v_lamb_equator, v_sigma_equator by lra.
  assert (N2 : L + f * l <= L / (1 - f)) by (rewrite <- FX; apply Rplus_le_compat_l, Rmult_le_compat_l; lra).
  assert (N1 : l <= L + f * l).
  { assert (l * (1 - f) <= L); [|lra]. apply Rmult_le_reg_r with (/ (1 - f)); [apply Rinv_0_lt_compat; lra|]. rewrite Rmult_assoc, Rinv_r by lra. unfold Rdiv in Hl2. lra. }
  assert (N0 : L <= L + f * l) by nra.
  destruct (Rlt_dec PI (L + f * l)) as [X|X]; [lra|].
  destruct (Rlt_dec _ _) as [Y|Y].
  - destruct (Nat.le_gt_cases 49 m) as [M|M].
    { exfalso. rewrite Rabs_right in Y by lra.
      assert (B : (/2) ^ m <= (/ 2) ^ 49).
      { replace m with (49 + (m - 49))%nat by lia. rewrite pow_add. assert (0 <= (/2)^49) by (apply pow_le; lra).
        assert (0 <= (/2) ^ (m - 49) <= 1) by (split; [apply pow_le; lra|rewrite <- (pow1 (m - 49)); apply pow_incr; lra]). nra. }
      assert (B2 : (/ 2) ^ 49 <= 1 / 10 ^ 12 / 4).
      { replace 49%nat with (10 * 4 + 9)%nat by reflexivity. rewrite pow_add, pow_mult.
        assert ((/2) ^ 10 <= 1 / 1000) by lra. assert (((/2)^10) ^ 4 <= (1/1000)^4) by (apply pow_incr; split; [apply pow_le; lra|assumption]).
        assert (0 <= ((/2)^10)^4) by (apply pow_le, pow_le; lra). assert ((/2)^9 <= 1/4) by lra. assert (0 <= (/2)^9) by (apply pow_le; lra).
        replace (1 / 10 ^ 12 / 4) with ((1/1000)^4 * (1/4)) by field. apply Rmult_le_compat; assumption. }
      assert (PI <= 4) by apply PI_4.
      assert (L * f <= 2) by nra. assert (0 <= (/2)^m) by (apply pow_le; lra).
      assert (L * f * (/2)^m <= 2 * (1 / 10 ^ 12 / 4)) by (apply Rmult_le_compat; [nra|assumption|assumption|eapply Rle_trans; eassumption]). lra. }
    apply (IH (S m)); [lia|lia|lra|lra|].
    replace (L + f * (L + f * l) - (L + f * l)) with (f * (L + f * l - l)) by ring. simpl pow.
    assert (P : 0 <= (/2)^m) by (apply pow_le; lra). replace (L * f * (/ 2 * (/2) ^ m)) with (/ 2 * (L * f * (/ 2) ^ m)) by ring.
    apply Rmult_le_compat; lra.
  - exists l, (L + f * l), (v_cos2sigmam 0 0 l (PI/2)). split; [reflexivity|]. split; [lra|]. split; [lra|].
    apply Rnot_lt_le in Y. replace (l * (1 - f) - L) with (- (L + f * l - l)) by ring. rewrite Rabs_Ropp. exact Y.
Qed.
Lemma ell_f_range ell : ell_ok ell -> 0 <= flattening (resolve_ellipsoid ell) < 1.
Proof.
  intros He. destruct (ell_pos ell He) as [Hb Hab]. rewrite (ell_f ell He).
  split; [apply Rmult_le_pos; [lra|left; apply Rinv_0_lt_compat; lra]|]. apply Rmult_lt_reg_r with (ell_a ell); [lra|]. unfold Rdiv. rewrite Rmult_assoc, Rinv_l by lra. lra.
Qed.
Lemma vdist_state n ell deg lat1 lat2 L : ell_ok ell -> 0 <= L <= PI -> exists l', L <= l' <= PI /\
  snd (vdist_loop (S n) (flattening (resolve_ellipsoid ell)) L (vU ell deg lat1) (vU ell deg lat2) L (0,0,0)) = v_state_of (vU ell deg lat1) (vU ell deg lat2) l'.
Proof.
  intros He HL. pose proof (ell_f_range ell He). apply vdist_loop_inv; try (apply reduced_range); try lra; [left; reflexivity|left; discriminate].
Qed.
